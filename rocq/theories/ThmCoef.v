(** C64: the pixels enter a file through the quantized coefficients only. *)
From Coq Require Import Reals Lra.
From Verif Require Import T81 SFile SEncode SHuff SAvx2 SSize SRestart SDecide SReal SGen SCoef MAvx2 PAvx2 PAvxDct PSmall PRest PDecide PCount PAll PSame PPlat PMax
  ThmRound ThmQuant ThmScan ThmHuff ThmBytes ThmRestart ThmDecide ThmAvx2 ThmAll ThmLocal ThmReal ThmGen.
From Coq Require Import ZArith List Bool Lia.
Import ListNotations.
Open Scope Z_scope.

Lemma same_file_all s op F T im1 im2 pl1 pl2 P bytes : settings_wf s -> op_ok op F -> transform_is F T -> plat_ok P ->
  image_ok im1 pl1 -> image_ok im2 pl2 -> im_color im2 = im_color im1 -> im_width im2 = im_width im1 -> im_height im2 = im_height im1 ->
  let color := im_color im1 in let w := im_width im1 in let h := im_height im1 in
  w * h < 2 ^ (ubits P - 1) -> (s_optimize s = true -> countable s color w h) ->
  same_quantized T s color pl1 pl2 w h ->
  exec (encode_image_internal P op (enc_of s) im1) = (bytes, Ok tt) -> exec (encode_image_internal P op (enc_of s) im2) = (bytes, Ok tt).
Proof.
  intros Hs Hop HF HP Him1 Him2 Ec Ew Eh color w h Hfit Hfew He E. set (f := frame_for s color w h).
  assert (R : forall ci y x k, 0 <= y -> 0 <= x -> 0 <= k < 64 -> spec_cf s T im1 pl1 ci y x k = spec_cf s T im2 pl2 ci y x k).
  { intros ci y x k Hy Hx Hk. unfold spec_cf. rewrite Ec, Ew, Eh. fold color w h f. destruct (nth_error (fr_comps f) ci) as [c|] eqn:Hc; [|reflexivity]. now apply He. }
  apply (same_file s Hs op F T Hop HF im1 im2 pl1 pl2 Him1 Him2 Ec Ew Eh) with (P := P); try assumption.
  - intros si ci y x k _ Hu Hk. assert (0 <= y /\ 0 <= x) as [Hy Hx]; [|exact (R ci y x k Hy Hx Hk)].
    fold w h in Hu. fold color in Hu. fold f in Hu. clearbody f. clear - Hu. unfold mcus_of in Hu. set (cl := flat_map _ _) in Hu. clearbody cl. apply in_concat in Hu as (mcu & Hm & Hu).
    assert (G : In mcu (interleaved_mcus f cl) -> 0 <= y /\ 0 <= x).
    { intros Hi. unfold interleaved_mcus in Hi. apply in_flat_map in Hi as (my & Hmy & Hi). apply in_map_iff in Hi as (mx & <- & Hmx).
      apply in_flat_map in Hu as ([i c] & Hic & Hu). apply in_flat_map in Hu as (v & Hv & Hu). apply in_map_iff in Hu as (hh & E & Hhh).
      injection E as <- <- <-. apply in_upto in Hmy, Hmx, Hv, Hhh. clear - Hmy Hmx Hv Hhh. nia. }
    destruct cl as [|[i c] [|p cl]]; [exact (G Hm)| |exact (G Hm)].
    clear G. unfold scan_mcus, single_mcus in Hm. apply in_flat_map in Hm as (y' & Hy & Hm). apply in_map_iff in Hm as (x' & <- & Hx).
    destruct Hu as [E|[]]. injection E as <- <- <-. apply in_upto in Hy, Hx. lia.
  - intros ci c y x k _ Hy Hx Hk. apply R; lia.
Qed.

(** Two images of the same size; their pixel formats may differ as long as the files have the same colour space. *)

Theorem C64_same_file : forall P quality calls data1 data2 w h c1 c2 bytes, let s := settings_of quality calls in
  valid_call P quality calls data1 w h c1 -> valid_call P quality calls data2 w h c2 -> spec_color c2 = spec_color c1 ->
  same_quantized int_dct s (spec_color c1) (spec_plane c1 data1 w) (spec_plane c2 data2 w) w h ->
  exec (run_encode P quality calls data1 w h c1) = (bytes, Ok tt) -> exec (run_encode P quality calls data2 w h c2) = (bytes, Ok tt).
Proof.
  intros P quality calls data1 data2 w h c1 c2 bytes s [C V Hfew] [_ V2 _] Ec Hq. rewrite !run_encode_eq by assumption. fold s.
  pose proof (same_file_all s default_operations fdct_pure int_dct (image_of P data1 w h c1) (image_of P data2 w h c2) _ _ P bytes (settings_of_wf quality calls C) default_op_ok fdct_is_int_dct
    (vi_platform _ _ _ _ _ V) (valid_image _ _ _ _ _ V) (valid_image _ _ _ _ _ V2)) as G.
  rewrite !image_of_width, !image_of_height, !image_of_color in G.
  exact (G Ec eq_refl eq_refl (proj1 (valid_fits _ _ _ _ _ V)) Hfew Hq).
Qed.
Theorem C64_same_file_simd : forall P quality calls data1 data2 w h c1 c2 bytes, let s := settings_of quality calls in
  valid_call P quality calls data1 w h c1 -> valid_call P quality calls data2 w h c2 -> spec_color c2 = spec_color c1 ->
  same_quantized avx2_dct s (spec_color c1) (spec_plane c1 data1 w) (spec_plane c2 data2 w) w h ->
  exec (run_encode_avx2 P quality calls data1 w h c1) = (bytes, Ok tt) -> exec (run_encode_avx2 P quality calls data2 w h c2) = (bytes, Ok tt).
Proof.
  intros P quality calls data1 data2 w h c1 c2 bytes s [C V Hfew] [_ V2 _] Ec Hq. rewrite !run_avx2_eq by assumption. fold s.
  pose proof (same_file_all s avx2_operations avx2_pure avx2_dct (image_of P data1 w h c1) (image_of P data2 w h c2) _ _ P bytes (settings_of_wf quality calls C) avx2_op_ok avx2_is_dct
    (vi_platform _ _ _ _ _ V) (valid_image _ _ _ _ _ V) (valid_image _ _ _ _ _ V2)) as G.
  rewrite !image_of_width, !image_of_height, !image_of_color in G.
  exact (G Ec eq_refl eq_refl (proj1 (valid_fits _ _ _ _ _ V)) Hfew Hq).
Qed.
Theorem C64_same_file_image : forall P quality calls im1 pl1 im2 pl2 bytes, let s := settings_of quality calls in
  let color := im_color im1 in let w := im_width im1 in let h := im_height im1 in
  Forall call_wf calls -> valid_buffer P im1 pl1 -> valid_buffer P im2 pl2 -> (s_optimize s = true -> countable s color w h) ->
  im_color im2 = color -> im_width im2 = w -> im_height im2 = h -> same_quantized int_dct s color pl1 pl2 w h ->
  exec (run_encode_image P quality calls im1) = (bytes, Ok tt) -> exec (run_encode_image P quality calls im2) = (bytes, Ok tt).
Proof.
  intros P quality calls im1 pl1 im2 pl2 bytes s color w h C V V2 Hfew Ec Ew Eh Hq. rewrite !run_encode_image_eq by assumption. fold s.
  exact (same_file_all s default_operations fdct_pure int_dct im1 im2 pl1 pl2 P bytes (settings_of_wf quality calls C) default_op_ok fdct_is_int_dct
    (vb_platform _ _ _ V) (vb_image _ _ _ V) (vb_image _ _ _ V2) Ec Ew Eh (vb_fits _ _ _ V) Hfew Hq).
Qed.

(** Images of whole MCUs: the files are equal exactly if they decode to the same coefficients. *)
Theorem C64_iff : forall P quality calls data1 data2 w h c1 c2 bytes1 bytes2 j1 j2, let s := settings_of quality calls in
  valid_call P quality calls data1 w h c1 -> valid_call P quality calls data2 w h c2 -> spec_color c2 = spec_color c1 ->
  representable int_dct s (spec_color c1) (spec_plane c1 data1 w) w h -> representable int_dct s (spec_color c2) (spec_plane c2 data2 w) w h ->
  whole_mcus (frame_for s (spec_color c1) w h) ->
  exec (run_encode P quality calls data1 w h c1) = (bytes1, Ok tt) -> decode bytes1 = Some j1 ->
  exec (run_encode P quality calls data2 w h c2) = (bytes2, Ok tt) -> decode bytes2 = Some j2 ->
  bytes1 = bytes2 <-> same_coefficients j1 j2.
Proof.
  intros P quality calls data1 data2 w h c1 c2 bytes1 bytes2 j1 j2 s [C V Hfew] [_ V2 Hfew2] Ec R1 R2 Hwh E1 D1 E2 D2.
  split; [intros <-; rewrite D1 in D2; injection D2 as <-; split; [reflexivity|intros; reflexivity]|]. intros [_ S].
  apply (C46_decodes_iff P quality calls data1 w h c1 C V Hfew (fun _ => or_intror (done_generated _ _ _ E1))) in R1.
  apply (C46_decodes_iff P quality calls data2 w h c2 C V2 Hfew2 (fun _ => or_intror (done_generated _ _ _ E2))) in R2.
  destruct R1 as (b1 & i1 & X1 & Y1 & A1). destruct R2 as (b2 & i2 & X2 & Y2 & A2).
  rewrite E1 in X1. injection X1 as <-. rewrite D1 in Y1. injection Y1 as <-. rewrite E2 in X2. injection X2 as <-. rewrite D2 in Y2. injection Y2 as <-.
  fold s in A1, A2. rewrite Ec in A2.
  cut (exec (run_encode P quality calls data2 w h c2) = (bytes1, Ok tt)); [intros X; rewrite E2 in X; injection X as <-; reflexivity|].
  rewrite run_encode_eq in E1 |- * by assumption. fold s in E1 |- *.
  pose proof (same_file_whole s default_operations fdct_pure int_dct (image_of P data1 w h c1) (image_of P data2 w h c2) _ _ P bytes1 (settings_of_wf quality calls C) default_op_ok fdct_is_int_dct
    (vi_platform _ _ _ _ _ V) (valid_image _ _ _ _ _ V) (valid_image _ _ _ _ _ V2)) as G.
  rewrite !image_of_width, !image_of_height, !image_of_color in G.
  apply (G Ec eq_refl eq_refl (proj1 (valid_fits _ _ _ _ _ V)) Hfew Hwh); [|exact E1].
  pose proof (da_frame _ _ _ _ _ _ _ A1) as J1. pose proof (da_frame _ _ _ _ _ _ _ A2) as J2.
  intros ci c y x k Hc Hy Hx Hk. specialize (S ci c y x k). rewrite J1 in S. specialize (S Hc Hy Hx Hk).
  rewrite (da_coef _ _ _ _ _ _ _ A1 ci c y x k Hc) in S by (try rewrite J1; assumption).
  rewrite (da_coef _ _ _ _ _ _ _ A2 ci c y x k Hc) in S by (try rewrite J2; assumption). congruence.
Qed.
(** With whole MCUs the first theorem needs the blocks of the image only. *)
Theorem C64_whole : forall P quality calls data1 data2 w h c1 c2 bytes, let s := settings_of quality calls in
  let f := frame_for s (spec_color c1) w h in
  valid_call P quality calls data1 w h c1 -> valid_call P quality calls data2 w h c2 -> spec_color c2 = spec_color c1 -> whole_mcus f ->
  (forall ci c y x k, nth_error (fr_comps f) ci = Some c -> 0 <= y < blocks_high f c -> 0 <= x < blocks_wide f c -> 0 <= k < 64 ->
     expected int_dct s (spec_color c1) (spec_plane c1 data1 w) w h ci c y x k = expected int_dct s (spec_color c1) (spec_plane c2 data2 w) w h ci c y x k) ->
  exec (run_encode P quality calls data1 w h c1) = (bytes, Ok tt) -> exec (run_encode P quality calls data2 w h c2) = (bytes, Ok tt).
Proof.
  intros P quality calls data1 data2 w h c1 c2 bytes s f [C V Hfew] [_ V2 _] Ec Hwh He. rewrite !run_encode_eq by assumption. fold s.
  pose proof (same_file_whole s default_operations fdct_pure int_dct (image_of P data1 w h c1) (image_of P data2 w h c2) _ _ P bytes (settings_of_wf quality calls C) default_op_ok fdct_is_int_dct
    (vi_platform _ _ _ _ _ V) (valid_image _ _ _ _ _ V) (valid_image _ _ _ _ _ V2)) as G.
  rewrite !image_of_width, !image_of_height, !image_of_color in G.
  exact (G Ec eq_refl eq_refl (proj1 (valid_fits _ _ _ _ _ V)) Hfew Hwh He).
Qed.

(** ** A concrete case: flat images of 9 x 17 pixels of the values 160 and 161, quality 40, optimized Huffman tables *)
Definition flat9 (n : Z) : list Z := repeat n 153.
Lemma flat9_pixel n y x : 0 <= y < 17 -> 0 <= x < 9 -> spec_plane Luma (flat9 n) 9 0 y x = n.
Proof.
  intros Hy Hx. unfold spec_plane, pixel_byte, flat9. apply (repeat_spec 153 n). apply nth_In. rewrite repeat_length. cbn [spec_bpp]. lia.
Qed.
Lemma flat9_valid n : 0 <= n <= 255 -> valid_call debug64 40 [COptimize true] (flat9 n) 9 17 Luma.
Proof.
  intros Hn. constructor; [repeat constructor| |].
  - constructor; try lia; [right; reflexivity| |vm_compute; discriminate|vm_compute; reflexivity].
    apply Forall_forall. intros x Hx. apply repeat_spec in Hx. subst x. unfold is_u8. lia.
  - intros _. apply few_countable. vm_compute. repeat constructor; discriminate.
Qed.
Lemma flat9_same : same_quantized int_dct (settings_of 40 [COptimize true]) JLuma (spec_plane Luma (flat9 160) 9) (spec_plane Luma (flat9 161) 9) 9 17.
Proof.
  assert (E : forall n ci c y x k, nth_error (comps_of (s_sampling (settings_of 40 [COptimize true])) JLuma) ci = Some c -> 0 <= y -> 0 <= x -> 0 <= k < 64 ->
    expected int_dct (settings_of 40 [COptimize true]) JLuma (spec_plane Luma (flat9 n) 9) 9 17 ci c y x k
    = let '(v, u) := zigzag_pos k in int_quantize (8 * quantizer (settings_of 40 [COptimize true]) 0 (Z.of_nat (8 * v + u))) (int_dct (fun _ _ => n - 128) v u)).
  { intros n ci c y x k Hc Hy Hx Hk. destruct ci as [|[|ci]]; try discriminate Hc. cbn in Hc. injection Hc as <-. unfold expected. pose proof (zigzag_pos_range k Hk) as Hz.
    destruct (zigzag_pos k) as [v u]. destruct Hz as [Hv Hu]. cbn [co_tq co_h co_v]. f_equal.
    apply (transform_ext fdct_pure int_dct _ _ v u fdct_is_int_dct Hv Hu). intros y' x' _ _. unfold block_sample.
    match goal with |- context[vmax ?f / 1] => change (vmax f / 1) with 1; change (hmax f / 1) with 1 end. rewrite flat9_pixel; lia. }
  intros ci c y x k Hc Hy Hx Hk. rewrite !(E _ ci c y x k Hc Hy Hx Hk). apply Z.eqb_eq.
  exact (below64 (fun k => (let '(v, u) := zigzag_pos k in int_quantize (8 * quantizer (settings_of 40 [COptimize true]) 0 (Z.of_nat (8 * v + u))) (int_dct (fun _ _ => 160 - 128) v u))
    =? (let '(v, u) := zigzag_pos k in int_quantize (8 * quantizer (settings_of 40 [COptimize true]) 0 (Z.of_nat (8 * v + u))) (int_dct (fun _ _ => 161 - 128) v u))) ltac:(vm_compute; reflexivity) k Hk).
Qed.
Example C64_case : exists bytes,
  exec (run_encode debug64 40 [COptimize true] (flat9 160) 9 17 Luma) = (bytes, Ok tt) /\
  exec (run_encode debug64 40 [COptimize true] (flat9 161) 9 17 Luma) = (bytes, Ok tt).
Proof.
  assert (X : exists bytes, exec (run_encode debug64 40 [COptimize true] (flat9 160) 9 17 Luma) = (bytes, Ok tt)) by (eexists; vm_compute; reflexivity).
  destruct X as (bytes & X). exists bytes. split; [exact X|].
  exact (C64_same_file debug64 40 [COptimize true] (flat9 160) (flat9 161) 9 17 Luma Luma bytes (flat9_valid 160 ltac:(lia)) (flat9_valid 161 ltac:(lia)) eq_refl flat9_same X).
Qed.
