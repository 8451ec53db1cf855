(** C71: with the standard Huffman tables no file is smaller than [min_size], and that of a mid-grey image is no larger. *)
From Verif Require Import T81 SFile SEncode SSize SMin SAvx2 SRestart SDecide MAvx2 PAvx2 PAvxDct PSmall PRest PDecide PCount PMax PMin
  ThmRound ThmScan ThmHuff ThmBytes ThmRestart ThmDecide ThmAvx2 ThmAll ThmSizeS.
From Coq Require Import ZArith List Bool Lia.
Import ListNotations.
Open Scope Z_scope.

Lemma least_with s op F T P im pl bytes : settings_wf s -> s_optimize s = false -> op_ok op F -> transform_is F T -> plat_ok P -> image_ok im pl ->
  im_width im * im_height im < 2 ^ (ubits P - 1) ->
  exec (encode_image_internal P op (enc_of s) im) = (bytes, Ok tt) ->
  min_size s (im_color im) (im_width im) (im_height im) <= Z.of_nat (length bytes) /\
  (wide_bands s -> (forall g v u, (forall y x, g y x = 0) -> T g v u = 0) ->
   mid_grey (length (fr_comps (frame_for s (im_color im) (im_width im) (im_height im)))) pl (im_width im) (im_height im) ->
   Z.of_nat (length bytes) = min_size s (im_color im) (im_width im) (im_height im)).
Proof.
  intros Hs O Hop HF HP Him Hfit E.
  pose proof (std_bytes_with P HP s Hs O op F T im pl Hop HF Him Hfit) as W. unfold emits in W. rewrite W in E. injection E as <-.
  change (render_file _) with (jpeg_file_with T annexK_tables s (im_color im) pl (im_width im) (im_height im)).
  destruct (dims _ _ Him) as [Hw Hh]. split.
  - apply at_least; try assumption. exact (coefficients_small s op F T im pl Hs Hop HF Him).
  - intros Hwd HT Hg. apply no_more; try assumption.
    + intros ci y x k. apply (grey_zero T s (im_color im) pl (im_width im) (im_height im)); (assumption || lia).
    + now apply wide_script.
Qed.

(** A call with the standard Huffman tables writes at least [min_size] bytes; this depends on the dimensions and the
    configuration, not on the samples. *)
Theorem C71_at_least : forall P quality calls data w h c bytes, valid_call P quality calls data w h c ->
  s_optimize (settings_of quality calls) = false ->
  exec (run_encode P quality calls data w h c) = (bytes, Ok tt) ->
  min_size (settings_of quality calls) (spec_color c) w h <= Z.of_nat (length bytes).
Proof.
  intros P quality calls data w h c bytes [C V _] O E. rewrite run_encode_eq in E by assumption.
  pose proof (least_with _ default_operations fdct_pure int_dct P _ _ bytes (settings_of_wf quality calls C) O default_op_ok fdct_is_int_dct
    (vi_platform _ _ _ _ _ V) (valid_image _ _ _ _ _ V)) as G.
  rewrite image_of_width, image_of_height, image_of_color in G. exact (proj1 (G (proj1 (valid_fits _ _ _ _ _ V)) E)).
Qed.
Theorem C71_at_least_image : forall P quality calls im pl bytes, let s := settings_of quality calls in
  Forall call_wf calls -> valid_buffer P im pl -> s_optimize s = false ->
  exec (run_encode_image P quality calls im) = (bytes, Ok tt) ->
  min_size s (im_color im) (im_width im) (im_height im) <= Z.of_nat (length bytes).
Proof.
  intros P quality calls im pl bytes s C V O E. rewrite run_encode_image_eq in E by assumption.
  exact (proj1 (least_with s default_operations fdct_pure int_dct P im pl bytes (settings_of_wf quality calls C) O default_op_ok fdct_is_int_dct
    (vb_platform _ _ _ V) (vb_image _ _ _ V) (vb_fits _ _ _ V) E)).
Qed.
Theorem C71_at_least_simd : forall P quality calls data w h c bytes, valid_call P quality calls data w h c ->
  s_optimize (settings_of quality calls) = false ->
  exec (run_encode_avx2 P quality calls data w h c) = (bytes, Ok tt) ->
  min_size (settings_of quality calls) (spec_color c) w h <= Z.of_nat (length bytes).
Proof.
  intros P quality calls data w h c bytes [C V _] O E. rewrite run_avx2_eq in E by assumption.
  pose proof (least_with _ avx2_operations avx2_pure avx2_dct P _ _ bytes (settings_of_wf quality calls C) O avx2_op_ok avx2_is_dct
    (vi_platform _ _ _ _ _ V) (valid_image _ _ _ _ _ V)) as G.
  rewrite image_of_width, image_of_height, image_of_color in G. exact (proj1 (G (proj1 (valid_fits _ _ _ _ _ V)) E)).
Qed.

(** A mid-grey image reaches this size: the bound is the best possible. *)
Theorem C71_mid_grey : forall P quality calls data w h c bytes, let s := settings_of quality calls in
  valid_call P quality calls data w h c -> s_optimize s = false -> wide_bands s ->
  mid_grey (length (fr_comps (frame_for s (spec_color c) w h))) (spec_plane c data w) w h ->
  exec (run_encode P quality calls data w h c) = (bytes, Ok tt) ->
  Z.of_nat (length bytes) = min_size s (spec_color c) w h.
Proof.
  intros P quality calls data w h c bytes s [C V _] O Hwd Hg E. rewrite run_encode_eq in E by assumption.
  pose proof (least_with _ default_operations fdct_pure int_dct P _ _ bytes (settings_of_wf quality calls C) O default_op_ok fdct_is_int_dct
    (vi_platform _ _ _ _ _ V) (valid_image _ _ _ _ _ V)) as G.
  rewrite image_of_width, image_of_height, image_of_color in G. exact (proj2 (G (proj1 (valid_fits _ _ _ _ _ V)) E) Hwd int_zero Hg).
Qed.
Theorem C71_mid_grey_image : forall P quality calls im pl bytes, let s := settings_of quality calls in
  Forall call_wf calls -> valid_buffer P im pl -> s_optimize s = false -> wide_bands s ->
  mid_grey (length (fr_comps (frame_for s (im_color im) (im_width im) (im_height im)))) pl (im_width im) (im_height im) ->
  exec (run_encode_image P quality calls im) = (bytes, Ok tt) ->
  Z.of_nat (length bytes) = min_size s (im_color im) (im_width im) (im_height im).
Proof.
  intros P quality calls im pl bytes s C V O Hwd Hg E. rewrite run_encode_image_eq in E by assumption.
  exact (proj2 (least_with s default_operations fdct_pure int_dct P im pl bytes (settings_of_wf quality calls C) O default_op_ok fdct_is_int_dct
    (vb_platform _ _ _ V) (vb_image _ _ _ V) (vb_fits _ _ _ V) E) Hwd int_zero Hg).
Qed.
Theorem C71_mid_grey_simd : forall P quality calls data w h c bytes, let s := settings_of quality calls in
  valid_call P quality calls data w h c -> s_optimize s = false -> wide_bands s ->
  mid_grey (length (fr_comps (frame_for s (spec_color c) w h))) (spec_plane c data w) w h ->
  exec (run_encode_avx2 P quality calls data w h c) = (bytes, Ok tt) ->
  Z.of_nat (length bytes) = min_size s (spec_color c) w h.
Proof.
  intros P quality calls data w h c bytes s [C V _] O Hwd Hg E. rewrite run_avx2_eq in E by assumption.
  pose proof (least_with _ avx2_operations avx2_pure avx2_dct P _ _ bytes (settings_of_wf quality calls C) O avx2_op_ok avx2_is_dct
    (vi_platform _ _ _ _ _ V) (valid_image _ _ _ _ _ V)) as G.
  rewrite image_of_width, image_of_height, image_of_color in G. exact (proj2 (G (proj1 (valid_fits _ _ _ _ _ V)) E) Hwd avx2_zero Hg).
Qed.
(** So no image has a smaller file than the mid-grey image of the same size, on any platform. *)
Theorem C71_smallest : forall P P' quality calls data grey w h c bytes bytes_grey, let s := settings_of quality calls in
  valid_call P quality calls data w h c -> valid_call P' quality calls grey w h c -> s_optimize s = false -> wide_bands s ->
  mid_grey (length (fr_comps (frame_for s (spec_color c) w h))) (spec_plane c grey w) w h ->
  exec (run_encode P quality calls data w h c) = (bytes, Ok tt) ->
  exec (run_encode P' quality calls grey w h c) = (bytes_grey, Ok tt) ->
  (length bytes_grey <= length bytes)%nat.
Proof.
  intros P P' quality calls data grey w h c bytes bg s V V' O Hwd Hg E E'.
  pose proof (C71_at_least P quality calls data w h c bytes V O E) as L.
  pose proof (C71_mid_grey P' quality calls grey w h c bg V' O Hwd Hg E') as M.
  apply Nat2Z.inj_le. rewrite M. exact L.
Qed.

(** Concrete cases: a 20 x 9 image with 4:2:0 and a restart interval of one MCU takes 641 bytes if it is mid-grey, and no other one takes less. *)
Definition grey_bytes : list Z := repeat 128 540.
Definition small_cfg : list call := [CSampling R_4_2_0; CRestart 1].
Example C71_case : valid_call debug64 60 small_cfg grey_bytes 20 9 Rgb /\ s_optimize (settings_of 60 small_cfg) = false /\
  wide_bands (settings_of 60 small_cfg) /\
  mid_grey (length (fr_comps (frame_for (settings_of 60 small_cfg) (spec_color Rgb) 20 9))) (spec_plane Rgb grey_bytes 20) 20 9 /\
  min_size (settings_of 60 small_cfg) JYcbcr 20 9 = 641.
Proof.
  split; [|split; [reflexivity|split; [exact I|split]]].
  - constructor; [repeat constructor; cbv; intuition (discriminate || congruence)| |discriminate].
    constructor; try (vm_compute; intuition (discriminate || congruence)).
    apply Forall_forall. intros v Hv. apply repeat_spec in Hv as ->. unfold is_u8. lia.
  - intros ci y x Hci Hy Hx. cbn in Hci.
    assert (A : forallb (fun ci => forallb (fun y => forallb (fun x => spec_plane Rgb grey_bytes 20 ci y x =? 128) (upto 20)) (upto 9)) (seq 0 3) = true) by (vm_compute; reflexivity).
    rewrite forallb_forall in A. specialize (A ci ltac:(apply in_seq; lia)). rewrite forallb_forall in A.
    assert (U : forall n v, 0 <= v < n -> In v (upto n)).
    { intros n v Hv. unfold upto. apply in_map_iff. exists (Z.to_nat v). split; [lia|]. apply in_seq. lia. }
    specialize (A y (U 9 y Hy)). rewrite forallb_forall in A. specialize (A x (U 20 x Hx)). lia.
  - vm_compute. reflexivity.
Qed.
