(** The coefficient round trip with the standard Huffman tables: C01, C04, C36. *)
From Verif Require Import PRound T81.
From Coq Require Import ZifyBool ZifyNat.

(** ** C01 *)
(** Every valid call of [encode] with a configuration of [std_config] succeeds, and the decoder of
    T81.v reads the file back: frame, segments, quantization tables and every coefficient. *)
Theorem C01_round_trip : forall P quality calls data w h c,
  std_config quality calls -> valid_input P data w h c ->
  exists bytes j,
    exec (run_encode P quality calls data w h c) = (bytes, Ok tt) /\ Forall is_u8 bytes /\
    decode bytes = Some j /\
    decoded_as (settings_of quality calls) (spec_color c) w h (spec_plane c data w) j.
Proof. exact encode_round_trip. Qed.

(** The same for [encode_image] and any ImageBuffer that presents the planes [pl]. *)
Theorem C01_round_trip_image : forall P quality calls im pl,
  std_config quality calls -> valid_buffer P im pl ->
  exists bytes j,
    exec (run_encode_image P quality calls im) = (bytes, Ok tt) /\ Forall is_u8 bytes /\
    decode bytes = Some j /\
    decoded_as (settings_of quality calls) (im_color im) (im_width im) (im_height im) pl j.
Proof. exact encode_image_round_trip. Qed.

(** A concrete case: 3 x 2 RGB pixels, progressive, restart interval, an ICC profile. *)
Definition ex_data : list Z := [255; 0; 0; 0; 255; 0; 0; 0; 255; 10; 20; 30; 255; 255; 255; 0; 0; 0].
Definition ex_cfg : list call :=
  [CProgressive true; CRestart 1; CSampling R_4_2_0; CQuant QDentalXRays QFlat; CIcc [1; 2; 3]].
Definition debug64 : platform := {| dbg := true; ubits := 64 |}.
Example ex_valid : valid_input debug64 ex_data 3 2 Rgb.
Proof.
  constructor; try (cbn; lia).
  - now right.
  - repeat constructor; unfold is_u8; lia.
Qed.
Example ex_config : std_config 60 ex_cfg.
Proof.
  constructor; cbn; try exact I; try lia; try reflexivity.
  repeat constructor; unfold is_u8, is_u16; cbn; try lia; exact I.
Qed.
Example ex_decodes :
  match exec (run_encode debug64 60 ex_cfg ex_data 3 2 Rgb) with
  | (bytes, Ok tt) => match decode bytes with Some j => coef j 0 0 0 0 | None => None end
  | _ => None
  end = Some (-123).
Proof. vm_compute. reflexivity. Qed.

(** ** C36: no panic *)
Theorem C36_no_panic : forall P quality calls data w h c,
  std_config quality calls -> valid_input P data w h c ->
  snd (exec (run_encode P quality calls data w h c)) = Ok tt.
Proof.
  intros P quality calls data w h c C V. destruct (C01_round_trip P quality calls data w h c C V) as (b & j & -> & _).
  reflexivity.
Qed.
Theorem C36_no_panic_image : forall P quality calls im pl,
  std_config quality calls -> valid_buffer P im pl ->
  snd (exec (run_encode_image P quality calls im)) = Ok tt.
Proof.
  intros P quality calls im pl C V. destruct (C01_round_trip_image P quality calls im pl C V) as (b & j & -> & _).
  reflexivity.
Qed.

(** ** C04: coding mode *)
(** The settings that determine the coefficients. *)
Definition same_coding (s1 s2 : settings) : Prop :=
  s_quality s1 = s_quality s2 /\ s_sampling s1 = s_sampling s2 /\
  s_luma s1 = s_luma s2 /\ s_chroma s1 = s_chroma s2.

Lemma decoded_same s1 s2 T color w h pl j1 j2 : same_coding s1 s2 ->
  decoded_with T s1 color w h pl j1 -> decoded_with T s2 color w h pl j2 ->
  fr_comps (j_frame j1) = fr_comps (j_frame j2) /\
  forall ci c, nth_error (fr_comps (j_frame j1)) ci = Some c ->
    quant j1 ci = quant j2 ci /\
    forall by_ bx k, 0 <= by_ < blocks_high (j_frame j1) c -> 0 <= bx < blocks_wide (j_frame j1) c -> 0 <= k < 64 ->
      exists v, coef j1 ci by_ bx k = Some v /\ coef j2 ci by_ bx k = Some v.
Proof.
  intros (Eq & Es & El & Ec) D1 D2.
  assert (F1 := da_frame _ _ _ _ _ _ _ D1). assert (F2 := da_frame _ _ _ _ _ _ _ D2).
  rewrite F1, F2. unfold frame_for. cbn [fr_comps]. split; [now rewrite Es|].
  intros ci c Hc. assert (Hc2 := Hc). rewrite Es in Hc2.
  assert (Q : forall i, quantizer s1 (co_tq c) i = quantizer s2 (co_tq c) i).
  { intros i. unfold quantizer. now rewrite Eq, El, Ec. }
  split.
  - rewrite (da_quant _ _ _ _ _ _ _ D1 ci c Hc), (da_quant _ _ _ _ _ _ _ D2 ci c Hc2).
    f_equal. apply map_ext. intros [v u]. apply Q.
  - intros by_ bx k Hy Hx Hk. exists (expected T s1 color pl w h ci c by_ bx k). split.
    + apply (da_coef _ _ _ _ _ _ _ D1); try assumption; rewrite F1; assumption.
    + rewrite (da_coef _ _ _ _ _ _ _ D2 ci c by_ bx k Hc2); try assumption.
      * unfold expected. destruct (zigzag_pos k) as [v u]. rewrite Q.
        unfold frame_for. rewrite Es. reflexivity.
      * rewrite F2. unfold frame_for. rewrite <- Es. exact Hy.
      * rewrite F2. unfold frame_for. rewrite <- Es. exact Hx.
Qed.

(** Two configurations that agree on quality, sampling factor and tables - and differ in progressive
    mode, number of scans, restart interval, metadata, even build and target - give files whose decoded
    quantization tables and coefficients are the same. *)
Theorem C04_same_coefficients : forall P1 P2 q1 calls1 q2 calls2 data w h c,
  std_config q1 calls1 -> std_config q2 calls2 ->
  valid_input P1 data w h c -> valid_input P2 data w h c ->
  same_coding (settings_of q1 calls1) (settings_of q2 calls2) ->
  exists b1 b2 j1 j2,
    exec (run_encode P1 q1 calls1 data w h c) = (b1, Ok tt) /\ decode b1 = Some j1 /\
    exec (run_encode P2 q2 calls2 data w h c) = (b2, Ok tt) /\ decode b2 = Some j2 /\
    fr_comps (j_frame j1) = fr_comps (j_frame j2) /\
    forall ci co, nth_error (fr_comps (j_frame j1)) ci = Some co ->
      quant j1 ci = quant j2 ci /\
      forall by_ bx k, 0 <= by_ < blocks_high (j_frame j1) co -> 0 <= bx < blocks_wide (j_frame j1) co -> 0 <= k < 64 ->
        exists v, coef j1 ci by_ bx k = Some v /\ coef j2 ci by_ bx k = Some v.
Proof.
  intros P1 P2 q1 calls1 q2 calls2 data w h c C1 C2 V1 V2 S.
  destruct (C01_round_trip P1 q1 calls1 data w h c C1 V1) as (b1 & j1 & E1 & _ & D1 & A1).
  destruct (C01_round_trip P2 q2 calls2 data w h c C2 V2) as (b2 & j2 & E2 & _ & D2 & A2).
  exists b1, b2, j1, j2. split; [exact E1|]. split; [exact D1|]. split; [exact E2|]. split; [exact D2|].
  exact (decoded_same _ _ _ _ _ _ _ _ _ S A1 A2).
Qed.
Example ex_modes : same_coding (settings_of 60 ex_cfg) (settings_of 60 [CQuant QDentalXRays QFlat; CSampling R_4_2_0]).
Proof. repeat split; reflexivity. Qed.
