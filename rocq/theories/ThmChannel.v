(** C75: a component of the file depends on its own channels of the pixels only. *)
From Verif Require Import T81 SFile SEncode SHuff SAvx2 SSize SRestart SDecide SLocal SReal SGrey SChannel MAvx2 PAvx2 PAvxDct PSmall PRest PDecide PCount PMax PPlat
  ThmRound ThmQuant ThmScan ThmHuff ThmBytes ThmRestart ThmDecide ThmAvx2 ThmAll ThmLocal ThmReal ThmGrey ThmDecoder ThmBright.
From Coq Require Import ZArith List Bool Lia ZifyBool ZifyNat.
Import ListNotations.
Open Scope Z_scope.

Lemma channel_plane c data1 data2 w y x ci :
  (forall i, In i (channels c ci) -> pixel_byte data1 w (spec_bpp c) y x i = pixel_byte data2 w (spec_bpp c) y x i) ->
  spec_plane c data1 w ci y x = spec_plane c data2 w ci y x.
Proof.
  unfold spec_plane, channels. generalize (pixel_byte data1 w (spec_bpp c) y x) (pixel_byte data2 w (spec_bpp c) y x). intros p p' H.
  destruct c; cbn [spec_bpp] in H; try (rewrite (H 0), (H 1), (H 2) by (cbn; auto); reflexivity); try (rewrite (H _ (or_introl eq_refl)); reflexivity).
  destruct (ci <? 3)%nat; [rewrite (H 0), (H 1), (H 2) by (cbn; auto)|rewrite (H 3) by (cbn; auto)]; reflexivity.
Qed.
Lemma channel_core F T (HF : transform_is F T) s1 s2 c data1 data2 w h j1 j2 ci : 1 <= w -> 1 <= h ->
  decoded_with T s1 (spec_color c) w h (spec_plane c data1 w) j1 -> decoded_with T s2 (spec_color c) w h (spec_plane c data2 w) j2 ->
  same_coding s1 s2 -> same_channels c data1 data2 w h ci -> same_component j1 j2 ci.
Proof.
  intros Hw Hh A1 A2 S B. pose proof (da_frame _ _ _ _ _ _ _ A1) as J1. pose proof (da_frame _ _ _ _ _ _ _ A2) as J2.
  destruct S as (S1 & S2 & S3 & S4).
  assert (CE : comps_of (s_sampling s2) (spec_color c) = comps_of (s_sampling s1) (spec_color c)) by (rewrite S2; reflexivity).
  assert (HM : hmax (frame_for s2 (spec_color c) w h) = hmax (frame_for s1 (spec_color c) w h)) by (unfold hmax, frame_for; cbn [fr_comps]; rewrite CE; reflexivity).
  assert (VM : vmax (frame_for s2 (spec_color c) w h) = vmax (frame_for s1 (spec_color c) w h)) by (unfold vmax, frame_for; cbn [fr_comps]; rewrite CE; reflexivity).
  assert (NE : nth_error (fr_comps (j_frame j1)) ci = nth_error (fr_comps (j_frame j2)) ci) by (rewrite J1, J2; unfold frame_for; cbn [fr_comps]; rewrite CE; reflexivity).
  assert (QE : quant j1 ci = quant j2 ci \/ nth_error (comps_of (s_sampling s1) (spec_color c)) ci = None).
  { destruct (nth_error (comps_of (s_sampling s1) (spec_color c)) ci) as [co|] eqn:M1; [left|right; reflexivity].
    rewrite (da_quant _ _ _ _ _ _ _ A1 ci co M1). rewrite (da_quant _ _ _ _ _ _ _ A2 ci co ltac:(rewrite CE; exact M1)). f_equal. apply map_ext. intros [v u].
    unfold quantizer. rewrite S1, S3, S4. reflexivity. }
  split; [exact NE|]. split.
  { destruct QE as [QE|QE]; [exact QE|]. unfold quant. rewrite <- NE. replace (nth_error (fr_comps (j_frame j1)) ci) with (@None comp) by (rewrite J1; symmetry; exact QE). reflexivity. }
  intros co by_ bx k N Hy Hx Hk.
  assert (M1 : nth_error (comps_of (s_sampling s1) (spec_color c)) ci = Some co) by (rewrite J1 in N; exact N).
  destruct QE as [QE|QE]; [|rewrite QE in M1; discriminate M1].
  assert (BH : blocks_high (frame_for s2 (spec_color c) w h) co = blocks_high (frame_for s1 (spec_color c) w h) co) by (unfold blocks_high, comp_height; rewrite VM; reflexivity).
  assert (BW : blocks_wide (frame_for s2 (spec_color c) w h) co = blocks_wide (frame_for s1 (spec_color c) w h) co) by (unfold blocks_wide, comp_width; rewrite HM; reflexivity).
  apply (component_core F T HF s1 s2 (spec_color c) (spec_color c) w h w h (spec_plane c data1 w) (spec_plane c data2 w) j1 j2 A1 A2 ci ci co co); try assumption.
  - rewrite <- NE. exact N.
  - rewrite J2, BH, <- J1. exact Hy.
  - rewrite J2, BW, <- J1. exact Hx.
  - intros y x Ly Lx. rewrite J1, J2. unfold sample_at. rewrite HM, VM.
    change (fr_height (frame_for s1 (spec_color c) w h)) with h. change (fr_width (frame_for s1 (spec_color c) w h)) with w.
    change (fr_height (frame_for s2 (spec_color c) w h)) with h. change (fr_width (frame_for s2 (spec_color c) w h)) with w.
    destruct (steps_exact s1 (spec_color c) w h co (nth_error_In _ _ M1)) as (_ & _ & Px & Py & _). unfold step_x, step_y in Px, Py.
    pose proof (nonneg8 by_ y _ (proj1 Hy) (Z.lt_le_incl _ _ Py)) as R1. pose proof (nonneg8 bx x _ (proj1 Hx) (Z.lt_le_incl _ _ Px)) as R2.
    generalize dependent ((8 * by_ + Z.of_nat y) * (vmax (frame_for s1 (spec_color c) w h) / co_v co)). intros Yc R1.
    generalize dependent ((8 * bx + Z.of_nat x) * (hmax (frame_for s1 (spec_color c) w h) / co_h co)). intros Xc R2.
    apply channel_plane. intros i Hi. apply B; [clear - R1 Hh; lia|clear - R2 Hw; lia|exact Hi].
Qed.

(** ** C75
    Two successful calls with images of one format and size whose bytes agree in the channels of a component: the
    component is the same in both files.  The other bytes have no influence on it, nor has the coding mode. *)
Definition components_agree (c : ctype) (run1 run2 : list Z * outcome unit) (data1 data2 : list Z) (w h : Z) : Prop :=
  exists b1 b2 j1 j2, run1 = (b1, Ok tt) /\ decode b1 = Some j1 /\ run2 = (b2, Ok tt) /\ decode b2 = Some j2 /\
    forall ci, same_channels c data1 data2 w h ci -> same_component j1 j2 ci.
Lemma channel_with F T (HF : transform_is F T) s1 s2 c data1 data2 w h run1 run2 : 1 <= w -> 1 <= h -> same_coding s1 s2 ->
  gives T s1 (spec_color c) w h (spec_plane c data1 w) run1 -> gives T s2 (spec_color c) w h (spec_plane c data2 w) run2 ->
  components_agree c run1 run2 data1 data2 w h.
Proof.
  intros Hw Hh S (b1 & j1 & E1 & D1 & A1) (b2 & j2 & E2 & D2 & A2). exists b1, b2, j1, j2.
  split; [exact E1|]. split; [exact D1|]. split; [exact E2|]. split; [exact D2|].
  intros ci B. exact (channel_core F T HF s1 s2 c data1 data2 w h j1 j2 ci Hw Hh A1 A2 S B).
Qed.
Theorem C75_channels : forall P1 P2 q1 calls1 q2 calls2 c data1 data2 w h,
  let s1 := settings_of q1 calls1 in let s2 := settings_of q2 calls2 in
  valid_call P1 q1 calls1 data1 w h c -> generated P1 q1 calls1 data1 w h c -> valid_call P2 q2 calls2 data2 w h c -> generated P2 q2 calls2 data2 w h c ->
  representable int_dct s1 (spec_color c) (spec_plane c data1 w) w h -> representable int_dct s2 (spec_color c) (spec_plane c data2 w) w h ->
  same_coding s1 s2 ->
  components_agree c (exec (run_encode P1 q1 calls1 data1 w h c)) (exec (run_encode P2 q2 calls2 data2 w h c)) data1 data2 w h.
Proof.
  intros P1 P2 q1 calls1 q2 calls2 c data1 data2 w h s1 s2 [C1 V1 F1] Gn1 [C2 V2 F2] Gn2 R1 R2 S.
  apply (C46_decodes_iff P1 q1 calls1 data1 w h c C1 V1 F1 Gn1) in R1. apply (C46_decodes_iff P2 q2 calls2 data2 w h c C2 V2 F2 Gn2) in R2.
  destruct (input_ok _ _ _ _ _ s1 V1) as (Hw & Hh & _).
  exact (channel_with _ _ fdct_is_int_dct s1 s2 c data1 data2 w h _ _ Hw Hh S R1 R2).
Qed.
Theorem C75_channels_simd : forall P1 P2 q1 calls1 q2 calls2 c data1 data2 w h,
  let s1 := settings_of q1 calls1 in let s2 := settings_of q2 calls2 in
  valid_call P1 q1 calls1 data1 w h c -> generated_simd P1 q1 calls1 data1 w h c -> valid_call P2 q2 calls2 data2 w h c -> generated_simd P2 q2 calls2 data2 w h c ->
  representable avx2_dct s1 (spec_color c) (spec_plane c data1 w) w h -> representable avx2_dct s2 (spec_color c) (spec_plane c data2 w) w h ->
  same_coding s1 s2 ->
  components_agree c (exec (run_encode_avx2 P1 q1 calls1 data1 w h c)) (exec (run_encode_avx2 P2 q2 calls2 data2 w h c)) data1 data2 w h.
Proof.
  intros P1 P2 q1 calls1 q2 calls2 c data1 data2 w h s1 s2 [C1 V1 F1] Gn1 [C2 V2 F2] Gn2 R1 R2 S.
  apply (C46_decodes_iff_simd P1 q1 calls1 data1 w h c C1 V1 F1 Gn1) in R1. apply (C46_decodes_iff_simd P2 q2 calls2 data2 w h c C2 V2 F2 Gn2) in R2.
  destruct (input_ok _ _ _ _ _ s1 V1) as (Hw & Hh & _).
  exact (channel_with _ _ avx2_is_dct s1 s2 c data1 data2 w h _ _ Hw Hh S R1 R2).
Qed.

(** ** A concrete case: 3 x 2 CMYK pixels; the black changes, the file is progressive, the other components stay *)
Definition cmyk_bytes : list Z := map (fun i => (i * 37 + 11) mod 256) (upto 24).
Definition other_black : list Z := map (fun i => if i mod 4 =? 3 then (i * 91) mod 256 else (i * 37 + 11) mod 256) (upto 24).
Example C75_case :
  (forall ci, (ci < 3)%nat -> same_channels Cmyk cmyk_bytes other_black 3 2 ci) /\ ~ same_channels Cmyk cmyk_bytes other_black 3 2 3 /\
  components_agree Cmyk (exec (run_encode debug64 60 [] cmyk_bytes 3 2 Cmyk)) (exec (run_encode release32 60 [CScans 4; CRestart 1] other_black 3 2 Cmyk))
    cmyk_bytes other_black 3 2.
Proof.
  split; [|split].
  - intros ci Hci y x i Hy Hx Hi. cbn [channels] in Hi. destruct Hi as [<-|[]].
    assert (K : forallb (fun ci => forallb (fun y => forallb (fun x => pixel_byte cmyk_bytes 3 4 y x ci =? pixel_byte other_black 3 4 y x ci) [0; 1; 2]) [0; 1]) [0; 1; 2] = true) by (vm_compute; reflexivity).
    rewrite forallb_forall in K. specialize (K (Z.of_nat ci) ltac:(assert (Z.of_nat ci = 0 \/ Z.of_nat ci = 1 \/ Z.of_nat ci = 2) as [-> | [-> | ->]] by lia; cbn; auto)).
    rewrite forallb_forall in K. specialize (K y ltac:(assert (y = 0 \/ y = 1) as [-> | ->] by lia; cbn; auto)).
    rewrite forallb_forall in K. specialize (K x ltac:(assert (x = 0 \/ x = 1 \/ x = 2) as [-> | [-> | ->]] by lia; cbn; auto)). apply Z.eqb_eq in K. exact K.
  - intros H. specialize (H 0 0 3 ltac:(lia) ltac:(lia) (or_introl eq_refl)). revert H. vm_compute. discriminate.
  - apply C75_channels.
    + constructor; [repeat constructor| |discriminate]. constructor; try (vm_compute; split; discriminate); [now right| |vm_compute; discriminate].
      apply bytes_by_check. vm_compute. reflexivity.
    + discriminate.
    + constructor; [repeat (constructor; [cbn; unfold is_u16; lia|]); constructor| |discriminate]. constructor; try (vm_compute; split; discriminate); [now left| |vm_compute; discriminate].
      apply bytes_by_check. vm_compute. reflexivity.
    + discriminate.
    + apply colour_fits; try reflexivity; vm_compute; reflexivity.
    + apply colour_fits; try reflexivity; try (vm_compute; reflexivity). vm_compute. discriminate.
    + repeat split; reflexivity.
Qed.
