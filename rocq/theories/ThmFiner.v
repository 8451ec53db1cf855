(** C68: raising the quality keeps the coefficients, for quantizers up to 69, and not beyond. *)
From Verif Require Import ThmGrey.
From Verif Require Import T81 SDct SFile SEncode SHuff SAvx2 SSize SRestart SDecide SGrey SFiner MAvx2 PAvx2 PAvxDct PSmall PRest PDecide PCount PMax PPlat
  ThmRound ThmQuant ThmScan ThmHuff ThmBytes ThmRestart ThmDecide ThmAvx2 ThmAll ThmLocal.
From Coq Require Import ZArith List Bool Lia ZifyBool.
Import ListNotations.
Open Scope Z_scope.

Definition scaled_up (q a : Z) : Z := (a + bias (8 * q)) * recip (8 * q).
Definition step_ok (q : Z) : bool :=
  let r := recip (8 * q) in let r' := recip (8 * (q + 1)) in
  let n := bias (8 * (q + 1)) * r' - bias (8 * q) * r in
  (r' <? r) && forallb (fun a => scaled_up (q + 1) a / 2 ^ 15 <=? scaled_up q a / 2 ^ 15) (upto (n / (r - r') + 1)).
Lemma steps_ok : forallb (fun i => step_ok (i + 1)) (upto 68) = true.
Proof. vm_compute. reflexivity. Qed.
Lemma in_upto n v : 0 <= v < n -> In v (upto n).
Proof. intros H. unfold upto. apply in_map_iff. exists (Z.to_nat v). split; [lia|]. apply in_seq. lia. Qed.
Lemma one_step q a : 1 <= q <= 68 -> 0 <= a -> scaled_up (q + 1) a / 2 ^ 15 <= scaled_up q a / 2 ^ 15.
Proof.
  intros Hq Ha. pose proof steps_ok as S. rewrite forallb_forall in S. specialize (S (q - 1) (in_upto 68 (q - 1) ltac:(lia))).
  replace (q - 1 + 1) with q in S by lia. unfold step_ok in S. apply andb_prop in S as [S1 S2].
  set (r := recip (8 * q)) in *. set (r' := recip (8 * (q + 1))) in *. set (n := bias (8 * (q + 1)) * r' - bias (8 * q) * r) in *.
  destruct (Z_lt_dec a (n / (r - r') + 1)) as [L|L].
  - rewrite forallb_forall in S2. specialize (S2 a (in_upto _ a (conj Ha L))). now apply Z.leb_le.
  - apply Z.div_le_mono; [lia|]. unfold scaled_up. fold r r'.
    assert (D : 0 < r - r') by (apply Z.ltb_lt in S1; clear - S1; lia). clear S1 S2. pose proof (Z.mul_div_le n (r - r') D) as M1. pose proof (Z.mul_succ_div_gt n (r - r') D) as M2.
    assert (n <= a * (r - r')) by nia. unfold n in *. nia.
Qed.
Lemma many_steps q q' a : 1 <= q -> q <= q' -> q' <= 69 -> 0 <= a -> scaled_up q' a / 2 ^ 15 <= scaled_up q a / 2 ^ 15.
Proof.
  intros Hq Hle Hq' Ha. replace q' with (q + Z.of_nat (Z.to_nat (q' - q))) in * by lia. generalize dependent (Z.to_nat (q' - q)). clear q'.
  induction n as [|n IH]; intros Hle Hq'; [replace (q + Z.of_nat 0) with q by lia; lia|].
  etransitivity; [|apply IH; lia]. replace (q + Z.of_nat (S n)) with (q + Z.of_nat n + 1) by lia. apply one_step; lia.
Qed.
(** In general one more is possible. *)
Lemma recip_antitone d d' : 0 < d -> d <= d' -> recip d' <= recip d.
Proof.
  intros Hd Hle. unfold recip. change (2 * 2 ^ 15) with 65536.
  assert (E : forall d, 0 < d -> (65536 + d - 1) / (2 * d) = ((65536 - 1) / d + 1) / 2).
  { clear. intros d Hd. replace (65536 + d - 1) with (65535 + 1 * d) by lia. rewrite (Z.mul_comm 2 d), <- Z.div_div by lia. rewrite Z.div_add by lia. reflexivity. }
  rewrite !E by lia. apply Z.div_le_mono; [lia|]. assert ((65536 - 1) / d' <= (65536 - 1) / d) by (apply Z.div_le_compat_l; lia). lia.
Qed.
Lemma half_ok : forallb (fun i => bias (8 * (i + 1)) * recip (8 * (i + 1)) <=? 2 ^ 15 - 1) (upto 255) = true.
Proof. vm_compute. reflexivity. Qed.
Lemma half q : 1 <= q <= 255 -> bias (8 * q) * recip (8 * q) < 2 ^ 15.
Proof.
  intros Hq. pose proof half_ok as S. rewrite forallb_forall in S. specialize (S (q - 1) (in_upto 255 (q - 1) ltac:(lia))).
  replace (q - 1 + 1) with q in S by lia. lia.
Qed.
Lemma bias_pos d : 0 <= d -> 0 <= bias d.
Proof. intros H. unfold bias. assert (0 <= d / 2) by (apply Z.div_pos; lia). destruct (recip d * d <? 2 ^ 15); lia. Qed.
Lemma recip_pos d : 0 < d -> 0 <= recip d.
Proof. intros H. unfold recip. apply Z.div_pos; lia. Qed.
Lemma one_more q q' a : 1 <= q -> q <= q' -> q' <= 255 -> 0 <= a -> scaled_up q' a / 2 ^ 15 <= scaled_up q a / 2 ^ 15 + 1.
Proof.
  intros Hq Hle Hq' Ha. rewrite <- Z.div_add by lia. apply Z.div_le_mono; [lia|]. unfold scaled_up.
  pose proof (half q' ltac:(lia)) as H. pose proof (recip_antitone (8 * q) (8 * q') ltac:(lia) ltac:(lia)) as R.
  pose proof (bias_pos (8 * q) ltac:(lia)) as B. pose proof (recip_pos (8 * q) ltac:(lia)) as R0. nia.
Qed.

Lemma quantize_abs q v : 1 <= q <= 255 -> Z.abs (int_quantize (8 * q) v) = scaled_up q (Z.abs v) / 2 ^ 15 /\ 0 <= v * int_quantize (8 * q) v.
Proof.
  intros Hq. unfold int_quantize. fold (scaled_up q (Z.abs v)).
  assert (P : 0 <= scaled_up q (Z.abs v) / 2 ^ 15).
  { apply Z.div_pos; [|lia]. unfold scaled_up. pose proof (bias_pos (8 * q) ltac:(lia)). pose proof (recip_pos (8 * q) ltac:(lia)). nia. }
  destruct (Z.eq_dec v 0) as [->|Hv].
  - assert (scaled_up q (Z.abs 0) / 2 ^ 15 = 0).
    { apply Z.div_small. unfold scaled_up. rewrite Z.abs_0, Z.add_0_l. pose proof (half q Hq). pose proof (bias_pos (8 * q) ltac:(lia)). pose proof (recip_pos (8 * q) ltac:(lia)). nia. }
    rewrite H. split; reflexivity.
  - set (m := scaled_up q (Z.abs v) / 2 ^ 15) in *. clearbody m. split; [rewrite Z.abs_mul; destruct (Z.lt_trichotomy v 0) as [L|[L|L]]; [rewrite Z.sgn_neg by lia|lia|rewrite Z.sgn_pos by lia]; lia|].
    destruct (Z.lt_trichotomy v 0) as [L|[L|L]]; [rewrite Z.sgn_neg by lia|lia|rewrite Z.sgn_pos by lia]; nia.
Qed.
Lemma quantize_finer limit slack q q' v : (limit = 69 /\ slack = 0 \/ limit = 255 /\ slack = 1) -> 1 <= q -> q <= q' <= limit ->
  0 <= int_quantize (8 * q) v * int_quantize (8 * q') v /\ Z.abs (int_quantize (8 * q') v) <= Z.abs (int_quantize (8 * q) v) + slack.
Proof.
  intros HL Hq Hq'. assert (1 <= q <= 255 /\ 1 <= q' <= 255) as [B B'] by lia.
  destruct (quantize_abs q v B) as [A S]. destruct (quantize_abs q' v B') as [A' S']. split.
  - destruct (Z.eq_dec v 0) as [->|Hv]; [rewrite !C15_zero; lia|]. nia.
  - rewrite A, A'. destruct HL as [[-> ->]|[-> ->]]; [rewrite Z.add_0_r; apply many_steps; lia|apply one_more; lia].
Qed.

Lemma finer_core T s1 s2 color w h pl j1 j2 limit slack : settings_wf s1 -> (limit = 69 /\ slack = 0 \/ limit = 255 /\ slack = 1) ->
  finer limit s1 s2 -> factors (s_sampling s1) = factors (s_sampling s2) ->
  decoded_with T s1 color w h pl j1 -> decoded_with T s2 color w h pl j2 -> keeps slack j1 j2.
Proof.
  intros W HL Hf Hs A1 A2 ci co y x k N Hy Hx Hk. pose proof (da_frame _ _ _ _ _ _ _ A1) as J1. pose proof (da_frame _ _ _ _ _ _ _ A2) as J2.
  assert (EC : comps_of (s_sampling s2) color = comps_of (s_sampling s1) color) by (unfold comps_of; rewrite Hs; reflexivity).
  rewrite J1 in N, Hy, Hx. cbn [frame_for fr_comps] in N. assert (N' := N). rewrite <- EC in N'.
  assert (HM : hmax (frame_for s2 color w h) = hmax (frame_for s1 color w h)) by (unfold hmax, frame_for; cbn [fr_comps]; rewrite EC; reflexivity).
  assert (VM : vmax (frame_for s2 color w h) = vmax (frame_for s1 color w h)) by (unfold vmax, frame_for; cbn [fr_comps]; rewrite EC; reflexivity).
  pose proof (da_coef _ _ _ _ _ _ _ A1 ci co y x k N) as E1. rewrite J1 in E1. specialize (E1 Hy Hx Hk).
  assert (Hy' : 0 <= y < blocks_high (frame_for s2 color w h) co) by (unfold blocks_high, comp_height in *; rewrite VM; exact Hy).
  assert (Hx' : 0 <= x < blocks_wide (frame_for s2 color w h) co) by (unfold blocks_wide, comp_width in *; rewrite HM; exact Hx).
  pose proof (da_coef _ _ _ _ _ _ _ A2 ci co y x k N') as E2. rewrite J2 in E2. specialize (E2 Hy' Hx' Hk).
  rewrite E1, E2. eexists. eexists. split; [reflexivity|]. split; [reflexivity|]. unfold expected. rewrite HM, VM.
  pose proof (zigzag_pos_range k Hk) as Hz. destruct (zigzag_pos k) as [v u].
  assert (Ht : 0 <= co_tq co <= 1).
  { apply nth_error_In in N. clear - N. unfold comps_of in N. destruct (factors (s_sampling s1)), color; cbn in N; repeat destruct N as [<-|N]; cbn; try lia; destruct N. }
  assert (Hi : 0 <= Z.of_nat (8 * v + u) < 64) by lia.
  specialize (Hf (co_tq co) _ Ht Hi). apply (quantize_finer limit slack); [exact HL| |exact Hf].
  apply quantizer_min.
Qed.
Lemma keep_core T s1 s2 color w h pl run1 run2 limit slack : settings_wf s1 -> (limit = 69 /\ slack = 0 \/ limit = 255 /\ slack = 1) ->
  finer limit s1 s2 -> factors (s_sampling s1) = factors (s_sampling s2) ->
  gives T s1 color w h pl run1 -> gives T s2 color w h pl run2 -> runs_keep (Ok tt) slack run1 run2.
Proof.
  intros W HL Hf Hs (b1 & j1 & E1 & D1 & A1) (b2 & j2 & E2 & D2 & A2). exists b1, b2, j1, j2.
  split; [exact E1|]. split; [exact D1|]. split; [exact E2|]. split; [exact D2|]. exact (finer_core T s1 s2 color w h pl j1 j2 limit slack W HL Hf Hs A1 A2).
Qed.

(** ** C68
    With quantizers up to 69 the finer table loses nothing; up to 255 it can lose one. *)
Theorem C68_finer : forall P1 P2 q1 calls1 q2 calls2 data w h c limit slack,
  let s1 := settings_of q1 calls1 in let s2 := settings_of q2 calls2 in
  valid_call P1 q1 calls1 data w h c -> generated P1 q1 calls1 data w h c -> valid_call P2 q2 calls2 data w h c -> generated P2 q2 calls2 data w h c ->
  representable int_dct s1 (spec_color c) (spec_plane c data w) w h -> representable int_dct s2 (spec_color c) (spec_plane c data w) w h ->
  factors (s_sampling s1) = factors (s_sampling s2) -> finer limit s1 s2 -> limit = 69 /\ slack = 0 \/ limit = 255 /\ slack = 1 ->
  runs_keep (Ok tt) slack (exec (run_encode P1 q1 calls1 data w h c)) (exec (run_encode P2 q2 calls2 data w h c)).
Proof.
  intros P1 P2 q1 calls1 q2 calls2 data w h c limit slack s1 s2 [C1 V1 F1] Gn1 [C2 V2 F2] Gn2 R1 R2 Hs Hf HL.
  apply (C46_decodes_iff P1 q1 calls1 data w h c C1 V1 F1 Gn1) in R1. apply (C46_decodes_iff P2 q2 calls2 data w h c C2 V2 F2 Gn2) in R2.
  exact (keep_core _ s1 s2 _ _ _ _ _ _ limit slack (settings_of_wf _ _ C1) HL Hf Hs R1 R2).
Qed.
Theorem C68_finer_simd : forall P1 P2 q1 calls1 q2 calls2 data w h c limit slack,
  let s1 := settings_of q1 calls1 in let s2 := settings_of q2 calls2 in
  valid_call P1 q1 calls1 data w h c -> generated_simd P1 q1 calls1 data w h c -> valid_call P2 q2 calls2 data w h c -> generated_simd P2 q2 calls2 data w h c ->
  representable avx2_dct s1 (spec_color c) (spec_plane c data w) w h -> representable avx2_dct s2 (spec_color c) (spec_plane c data w) w h ->
  factors (s_sampling s1) = factors (s_sampling s2) -> finer limit s1 s2 -> limit = 69 /\ slack = 0 \/ limit = 255 /\ slack = 1 ->
  runs_keep (Ok tt) slack (exec (run_encode_avx2 P1 q1 calls1 data w h c)) (exec (run_encode_avx2 P2 q2 calls2 data w h c)).
Proof.
  intros P1 P2 q1 calls1 q2 calls2 data w h c limit slack s1 s2 [C1 V1 F1] Gn1 [C2 V2 F2] Gn2 R1 R2 Hs Hf HL.
  apply (C46_decodes_iff_simd P1 q1 calls1 data w h c C1 V1 F1 Gn1) in R1. apply (C46_decodes_iff_simd P2 q2 calls2 data w h c C2 V2 F2 Gn2) in R2.
  exact (keep_core _ s1 s2 _ _ _ _ _ _ limit slack (settings_of_wf _ _ C1) HL Hf Hs R1 R2).
Qed.
Theorem C68_finer_image : forall P q1 calls1 q2 calls2 im pl limit slack,
  let s1 := settings_of q1 calls1 in let s2 := settings_of q2 calls2 in
  let color := im_color im in let w := im_width im in let h := im_height im in
  Forall call_wf calls1 -> Forall call_wf calls2 -> valid_buffer P im pl ->
  (s_optimize s1 = true -> countable s1 color w h) -> tables_generated s1 color w h (run_encode_image P q1 calls1 im) ->
  (s_optimize s2 = true -> countable s2 color w h) -> tables_generated s2 color w h (run_encode_image P q2 calls2 im) ->
  representable int_dct s1 color pl w h -> representable int_dct s2 color pl w h ->
  factors (s_sampling s1) = factors (s_sampling s2) -> finer limit s1 s2 -> limit = 69 /\ slack = 0 \/ limit = 255 /\ slack = 1 ->
  runs_keep (Ok tt) slack (exec (run_encode_image P q1 calls1 im)) (exec (run_encode_image P q2 calls2 im)).
Proof.
  intros P q1 calls1 q2 calls2 im pl limit slack s1 s2 color w h C1 C2 V F1 Gn1 F2 Gn2 R1 R2 Hs Hf HL.
  apply (C46_decodes_iff_image P q1 calls1 im pl C1 V F1 Gn1) in R1. apply (C46_decodes_iff_image P q2 calls2 im pl C2 V F2 Gn2) in R2.
  exact (keep_core _ s1 s2 _ _ _ _ _ _ limit slack (settings_of_wf _ _ C1) HL Hf Hs R1 R2).
Qed.

(** The same preset tables with a higher quality are finer; the default tables have no entry above 69 from quality 72. *)
Theorem C68_quality : forall s1 s2, s_luma s1 = s_luma s2 -> s_chroma s1 = s_chroma s2 -> builtin (s_luma s2) -> builtin (s_chroma s2) ->
  s_quality s2 <= s_quality s1 -> finer 255 s1 s2.
Proof.
  intros s1 s2 El Ec Bl Bc Hq d i Hd Hi. unfold quantizer. rewrite El, Ec.
  assert (U : forall t l, builtin t -> quantizer_of t (s_quality s2) l i <= 255).
  { intros t l B. unfold quantizer_of, scaled. destruct t; try lia. destruct B. }
  destruct (d =? 0); (split; [now apply C13_monotone|now apply U]).
Qed.
Theorem C68_default_tables : forall s1 s2, s_luma s1 = QDefault -> s_chroma s1 = QDefault -> s_luma s2 = QDefault -> s_chroma s2 = QDefault ->
  72 <= s_quality s2 <= s_quality s1 -> finer 69 s1 s2.
Proof.
  intros s1 s2 El Ec Bl Bc [Hq Hq'] d i Hd Hi. unfold quantizer. rewrite El, Ec, Bl, Bc.
  pose proof (C13_monotone QDefault true i 72 (s_quality s2) I Hq) as M0. pose proof (C13_monotone QDefault false i 72 (s_quality s2) I Hq) as M1.
  pose proof (C13_monotone QDefault true i (s_quality s2) (s_quality s1) I Hq') as N0. pose proof (C13_monotone QDefault false i (s_quality s2) (s_quality s1) I Hq') as N1.
  pose proof (below64 (fun i => quantizer_of QDefault 72 true i <=? 69) ltac:(vm_compute; reflexivity) i Hi) as B0.
  pose proof (below64 (fun i => quantizer_of QDefault 72 false i <=? 69) ltac:(vm_compute; reflexivity) i Hi) as B1.
  cbv beta in *. destruct (d =? 0); lia.
Qed.

(** Beyond 69 it is false: with the default table, a coefficient of this greyscale image is coded at quality 50 (where
    the quantizer is 121) and lost at quality 51 (where it is 119). *)
Definition pattern : list Z :=
  flat_map (fun b : bool => map (fun a : bool => if Bool.eqb a b then 137 else 119) [true; false; true; true; false; false; true; false])
    [true; false; true; false; false; true; false; true].
Definition coef_of (run : list Z * outcome unit) (k : Z) : option Z :=
  match run with (b, Ok _) => match decode b with Some j => coef j 0 0 0 k | None => None end | _ => None end.
Theorem C68_lost_at_higher_quality :
  coef_of (exec (run_encode debug64 50 [] pattern 8 8 Luma)) 56 = Some 1 /\ coef_of (exec (run_encode debug64 51 [] pattern 8 8 Luma)) 56 = Some 0 /\
  finer 255 (settings_of 51 []) (settings_of 50 []).
Proof.
  split; [vm_compute; reflexivity|]. split; [vm_compute; reflexivity|]. apply C68_quality; try reflexivity; try exact I. cbn. lia.
Qed.

(** A case: qualities 90 and 75, with different entropy coders on different platforms. *)
Example C68_case : runs_keep (Ok tt) 0 (exec (run_encode debug64 90 [CSampling F_2_2] rgba_bytes 9 17 Rgba))
  (exec (run_encode release32 75 [CSampling F_2_2; CScans 4] rgba_bytes 9 17 Rgba)).
Proof.
  apply C68_finer with (limit := 69).
  - constructor; [repeat constructor| |discriminate]. constructor; try (vm_compute; split; discriminate); [now right| |vm_compute; discriminate].
    apply bytes_by_check. vm_compute. reflexivity.
  - discriminate.
  - constructor; [repeat (constructor; [cbn; unfold is_u16; auto; lia|]); constructor| |discriminate]. constructor; try (vm_compute; split; discriminate); [now left| |vm_compute; discriminate].
    apply bytes_by_check. vm_compute. reflexivity.
  - discriminate.
  - apply colour_fits; try reflexivity; vm_compute; reflexivity.
  - apply colour_fits; try reflexivity; try (vm_compute; reflexivity). vm_compute. discriminate.
  - reflexivity.
  - apply C68_default_tables; try reflexivity. cbn. lia.
  - now left.
Qed.
