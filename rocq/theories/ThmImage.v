(** What the output depends on: properties C22, C23, C24, C25, C38. *)
From Verif Require Import PRound PCong T81 ThmRound.
From Coq Require Import ZifyBool ZifyNat.

(** ** C38: the file is determined by the samples *)
Lemma append_row_ext n pl1 pl2 W y bs : (forall i x, (i < n)%nat -> 0 <= x < W -> pl1 i y x = pl2 i y x) ->
  append_row n pl1 W y bs = append_row n pl2 W y bs.
Proof.
  intros H. unfold append_row. apply map_ext. intros [i b]. destruct (i <? n)%nat eqn:E; [|reflexivity].
  f_equal. apply map_ext_in. intros x Hx. apply H; [lia|].
  unfold zrange in Hx. apply in_map_iff in Hx as (k & <- & Hk). apply in_seq in Hk. lia.
Qed.
Lemma append_row_length n pl W y bs : length (append_row n pl W y bs) = length bs.
Proof. unfold append_row. rewrite map_length, combine_length, seq_length. lia. Qed.

Lemma same_samples_rows im1 pl1 im2 pl2 : image_ok im1 pl1 -> image_ok im2 pl2 ->
  im_color im1 = im_color im2 -> im_width im1 = im_width im2 -> im_height im1 = im_height im2 ->
  (forall i y x, Z.of_nat i < num_components (im_color im1) -> 0 <= y < im_height im1 -> 0 <= x < im_width im1 ->
     pl1 i y x = pl2 i y x) ->
  same_rows im1 im2.
Proof.
  intros H1 H2 Ec Ew Eh Hpl. constructor; try assumption. intros y bs Hy Hb. split.
  - rewrite (io_fill _ _ H1) by assumption. rewrite (io_fill _ _ H2) by (try assumption; lia).
    rewrite <- Ec, <- Ew. do 2 f_equal. apply append_row_ext. intros i x Hi Hx. apply Hpl; lia.
  - intros o r E. rewrite (io_fill _ _ H1) in E by assumption. inversion E; subst. now rewrite append_row_length.
Qed.

(** Two image buffers that present the same samples give the same output and outcome for every
    configuration (also those outside [std_config]). *)
Theorem C38_same_samples : forall P quality calls im1 pl1 im2 pl2,
  Forall call_wf calls -> image_ok im1 pl1 -> image_ok im2 pl2 ->
  im_color im1 = im_color im2 -> im_width im1 = im_width im2 -> im_height im1 = im_height im2 ->
  (forall i y x, Z.of_nat i < num_components (im_color im1) -> 0 <= y < im_height im1 -> 0 <= x < im_width im1 ->
     pl1 i y x = pl2 i y x) ->
  exec (run_encode_image P quality calls im1) = exec (run_encode_image P quality calls im2).
Proof.
  intros P quality calls im1 pl1 im2 pl2 Hc H1 H2 Ec Ew Eh Hpl. rewrite !run_encode_image_eq by assumption.
  apply internal_cong; [|pose proof (io_height _ _ H1); lia]. eapply same_samples_rows; eassumption.
Qed.

(** [encode] is [encode_image] on any buffer that presents the converted pixels. *)
Theorem C38_encode_is_encode_image : forall P quality calls data w h c im,
  Forall call_wf calls -> valid_input P data w h c ->
  image_ok im (spec_plane c data w) -> im_color im = spec_color c -> im_width im = w -> im_height im = h ->
  exec (run_encode P quality calls data w h c) = exec (run_encode_image P quality calls im).
Proof.
  intros P quality calls data w h c im Hc V Him Ec Ew Eh. rewrite run_encode_eq, run_encode_image_eq by assumption.
  pose proof (vi_height _ _ _ _ _ V).
  apply internal_cong; [|rewrite image_of_height; lia].
  eapply same_samples_rows; [apply (valid_image _ _ _ _ _ V)|exact Him| | | |reflexivity].
  - now rewrite image_of_color.
  - now rewrite image_of_width.
  - now rewrite image_of_height.
Qed.

(** Two calls of [encode] whose components agree. *)
Lemma encode_same P quality calls w h data1 c1 data2 c2 : Forall call_wf calls ->
  valid_input P data1 w h c1 -> valid_input P data2 w h c2 -> spec_color c1 = spec_color c2 ->
  (forall i y x, Z.of_nat i < num_components (spec_color c1) -> 0 <= y < h -> 0 <= x < w ->
     spec_plane c1 data1 w i y x = spec_plane c2 data2 w i y x) ->
  exec (run_encode P quality calls data1 w h c1) = exec (run_encode P quality calls data2 w h c2).
Proof.
  intros Hc V1 V2 Ec Hpl. rewrite !run_encode_eq by assumption.
  pose proof (vi_height _ _ _ _ _ V1).
  apply internal_cong; [|rewrite image_of_height; lia].
  eapply same_samples_rows; [apply (valid_image _ _ _ _ _ V1)|apply (valid_image _ _ _ _ _ V2)|..].
  - now rewrite !image_of_color.
  - now rewrite !image_of_width.
  - now rewrite !image_of_height.
  - rewrite image_of_color, image_of_height, image_of_width. exact Hpl.
Qed.

(** ** C24: surplus bytes *)
Theorem C24_surplus : forall P quality calls data1 data2 w h c, Forall call_wf calls ->
  valid_input P data1 w h c -> valid_input P data2 w h c ->
  firstn (Z.to_nat (w * h * spec_bpp c)) data1 = firstn (Z.to_nat (w * h * spec_bpp c)) data2 ->
  exec (run_encode P quality calls data1 w h c) = exec (run_encode P quality calls data2 w h c).
Proof.
  intros P quality calls data1 data2 w h c Hc V1 V2 E. apply encode_same; try assumption; [reflexivity|].
  intros i y x Hi Hy Hx.
  assert (G : forall k, 0 <= k < spec_bpp c ->
            pixel_byte data1 w (spec_bpp c) y x k = pixel_byte data2 w (spec_bpp c) y x k).
  { intros k Hk. unfold pixel_byte.
    assert (B : (y * w + x) * spec_bpp c + k < w * h * spec_bpp c).
    { assert (A : y * w + x + 1 <= w * h) by nia. apply (Z.mul_le_mono_nonneg_r _ _ (spec_bpp c)) in A; lia. }
    assert (B0 : 0 <= (y * w + x) * spec_bpp c + k).
    { assert (0 <= y * w + x) by nia. assert (0 <= (y * w + x) * spec_bpp c) by (apply Z.mul_nonneg_nonneg; lia). lia. }
    set (n := (y * w + x) * spec_bpp c + k) in *. set (m := w * h * spec_bpp c) in *.
    assert (N : forall l : list Z, nth (Z.to_nat n) l 0 = nth (Z.to_nat n) (firstn (Z.to_nat m) l) 0).
    { intros l. assert (Hn : (Z.to_nat n < Z.to_nat m)%nat) by lia. clearbody n m. clear - Hn.
      revert l Hn. generalize (Z.to_nat m) as b. generalize (Z.to_nat n) as a.
      induction a as [|a IH]; intros b l Hn; destruct b as [|b]; try lia; destruct l as [|z l]; try reflexivity.
      cbn [nth firstn]. apply IH. lia. }
    rewrite N, (N data2), E. reflexivity. }
  unfold spec_plane. destruct c; cbn [spec_bpp spec_color num_components] in *; rewrite ?G by lia; reflexivity.
Qed.
Theorem C24_appended : forall P quality calls data extra w h c, Forall call_wf calls ->
  valid_input P data w h c -> valid_input P (data ++ extra) w h c ->
  exec (run_encode P quality calls (data ++ extra) w h c) = exec (run_encode P quality calls data w h c).
Proof.
  intros P quality calls data extra w h c Hc V1 V2. apply C24_surplus; try assumption.
  rewrite firstn_app. pose proof (vi_enough _ _ _ _ _ V1) as E.
  replace (Z.to_nat (w * h * spec_bpp c) - length data)%nat with 0%nat by lia.
  cbn [firstn]. now rewrite app_nil_r.
Qed.
Example C24_case : valid_input debug64 (ex_data ++ [7; 8; 9]) 3 2 Rgb.
Proof. constructor; try (cbn; lia). - now right. - repeat constructor; unfold is_u8; lia. Qed.

(** ** C23: pixel formats *)
Lemma flat_nth {X} (f : X -> list Z) n d : (forall p, length (f p) = n) -> forall px i k, (i < length px)%nat -> (k < n)%nat ->
  nth (i * n + k) (flat_map f px) 0 = nth k (f (nth i px d)) 0.
Proof.
  intros Hf. induction px as [|p px IH]; intros i k Hi Hk; cbn [length] in Hi; [lia|].
  cbn [flat_map]. destruct i as [|i].
  - cbn [Nat.mul Nat.add nth]. rewrite app_nth1 by (rewrite Hf; lia). reflexivity.
  - rewrite app_nth2 by (rewrite Hf; nia). rewrite Hf. cbn [nth]. rewrite <- IH by lia. f_equal. nia.
Qed.
Lemma flat_length {X} (f : X -> list Z) n px : (forall p, length (f p) = n) -> length (flat_map f px) = (length px * n)%nat.
Proof. intros Hf. induction px as [|p px IH]; [reflexivity|]. cbn [flat_map length]. rewrite app_length, Hf, IH. lia. Qed.
Lemma flat_pixel {X} (f : X -> list Z) d n px w h y x k : (forall p, Z.of_nat (length (f p)) = n) ->
  w * h <= Z.of_nat (length px) -> 0 <= y < h -> 0 <= x < w -> 0 <= k < n ->
  pixel_byte (flat_map f px) w n y x k = nth (Z.to_nat k) (f (nth (Z.to_nat (y * w + x)) px d)) 0.
Proof.
  intros Hf Hl Hy Hx Hk. unfold pixel_byte.
  assert (0 <= y * w + x < w * h) by nia.
  replace (Z.to_nat ((y * w + x) * n + k)) with (Z.to_nat (y * w + x) * Z.to_nat n + Z.to_nat k)%nat.
  - apply flat_nth; [intros p; specialize (Hf p); lia|lia|lia].
  - set (a := y * w + x) in *. clearbody a. rewrite Z2Nat.inj_add, Z2Nat.inj_mul by nia. reflexivity.
Qed.

(** A list of four-channel pixels as bytes in the given layout. *)
Definition quad : Type := Z * Z * Z * Z.
Definition quad_u8 (p : quad) : Prop := let '(a, b, c, d) := p in is_u8 a /\ is_u8 b /\ is_u8 c /\ is_u8 d.
Definition as_rgb (p : quad) : list Z := let '(r, g, b, _) := p in [r; g; b].
Definition as_bgr (p : quad) : list Z := let '(r, g, b, _) := p in [b; g; r].
Definition as_rgba (p : quad) : list Z := let '(r, g, b, a) := p in [r; g; b; a].
Definition as_bgra (p : quad) : list Z := let '(r, g, b, a) := p in [b; g; r; a].
Definition as_ycbcr (p : quad) : list Z := let '(r, g, b, _) := p in [spec_y r g b; spec_cb r g b; spec_cr r g b].
Definition as_cmyk (p : quad) : list Z := let '(c, m, y, k) := p in [c; m; y; k].
Definition as_ycck (p : quad) : list Z :=
  let '(c, m, y, k) := p in [spec_y c m y; spec_cb c m y; spec_cr c m y; 255 - k].

Record valid_pixels (P : platform) (px : list quad) (w h : Z) : Prop := {
  vp_platform : plat_ok P;
  vp_u8 : Forall quad_u8 px;
  vp_width : 1 <= w <= 65535;
  vp_height : 1 <= h <= 65535;
  vp_enough : w * h <= Z.of_nat (length px);
  vp_slice : 4 * Z.of_nat (length px) < 2 ^ (ubits P - 1)
}.

Lemma layout_valid P px w h c (f : quad -> list Z) : valid_pixels P px w h ->
  (forall p, Z.of_nat (length (f p)) = spec_bpp c) -> (forall p, quad_u8 p -> Forall is_u8 (f p)) ->
  valid_input P (flat_map f px) w h c.
Proof.
  intros V Hf Hb. assert (Hbpp : 1 <= spec_bpp c <= 4) by (destruct c; cbn; lia).
  assert (Hlen : Z.of_nat (length (flat_map f px)) = Z.of_nat (length px) * spec_bpp c).
  { rewrite (flat_length f (Z.to_nat (spec_bpp c))); [lia|]. intros p. specialize (Hf p). lia. }
  pose proof (vp_enough _ _ _ _ V). pose proof (vp_slice _ _ _ _ V).
  constructor; try apply V.
  - apply Forall_flat_map. eapply Forall_impl; [|apply (vp_u8 _ _ _ _ V)]. exact Hb.
  - rewrite Hlen. nia.
  - rewrite Hlen. nia.
Qed.

Local Ltac layout := intros [[[? ?] ?] ?] (? & ? & ? & ?); repeat (apply Forall_cons; [assumption|]); apply Forall_nil.
Local Ltac len := intros [[[? ?] ?] ?]; reflexivity.
Lemma valid_rgb P px w h : valid_pixels P px w h -> valid_input P (flat_map as_rgb px) w h Rgb.
Proof. intros V. apply layout_valid; [exact V|len|layout]. Qed.
Lemma valid_bgr P px w h : valid_pixels P px w h -> valid_input P (flat_map as_bgr px) w h Bgr.
Proof. intros V. apply layout_valid; [exact V|len|layout]. Qed.
Lemma valid_rgba P px w h : valid_pixels P px w h -> valid_input P (flat_map as_rgba px) w h Rgba.
Proof. intros V. apply layout_valid; [exact V|len|layout]. Qed.
Lemma valid_bgra P px w h : valid_pixels P px w h -> valid_input P (flat_map as_bgra px) w h Bgra.
Proof. intros V. apply layout_valid; [exact V|len|layout]. Qed.
Lemma valid_ycbcr P px w h : valid_pixels P px w h -> valid_input P (flat_map as_ycbcr px) w h Ycbcr.
Proof.
  intros V. apply layout_valid; [exact V|len|]. intros [[[r g] b] a] (H1 & H2 & H3 & _). unfold is_u8 in *.
  pose proof (ycc_range r g b 0 ltac:(lia) ltac:(lia) ltac:(lia)).
  pose proof (ycc_range r g b 1 ltac:(lia) ltac:(lia) ltac:(lia)).
  pose proof (ycc_range r g b 2 ltac:(lia) ltac:(lia) ltac:(lia)).
  cbn [spec_ycc as_ycbcr] in *. repeat (apply Forall_cons; [lia|]); apply Forall_nil.
Qed.
Lemma valid_cmyk P px w h : valid_pixels P px w h -> valid_input P (flat_map as_cmyk px) w h CmykAsYcck.
Proof. intros V. apply layout_valid; [exact V|len|layout]. Qed.
Lemma valid_ycck P px w h : valid_pixels P px w h -> valid_input P (flat_map as_ycck px) w h Ycck.
Proof.
  intros V. apply layout_valid; [exact V|len|]. intros [[[r g] b] a] (H1 & H2 & H3 & H4). unfold is_u8 in *.
  pose proof (ycc_range r g b 0 ltac:(lia) ltac:(lia) ltac:(lia)).
  pose proof (ycc_range r g b 1 ltac:(lia) ltac:(lia) ltac:(lia)).
  pose proof (ycc_range r g b 2 ltac:(lia) ltac:(lia) ltac:(lia)).
  cbn [spec_ycc as_ycck] in *. repeat (apply Forall_cons; [lia|]); apply Forall_nil.
Qed.

Lemma cases3 i : Z.of_nat i < 3 -> i = 0%nat \/ i = 1%nat \/ i = 2%nat.
Proof. lia. Qed.
Lemma cases4 i : Z.of_nat i < 4 -> i = 0%nat \/ i = 1%nat \/ i = 2%nat \/ i = 3%nat.
Proof. lia. Qed.

Section C23.
  Variables (P : platform) (quality : Z) (calls : list call) (px : list quad) (w h : Z).
  Variable Hc : Forall call_wf calls.
  Variable V : valid_pixels P px w h.

  Local Ltac planes_eq cs :=
    intros i y x Hi Hy Hx; cbn [spec_color num_components] in Hi;
    unfold spec_plane; cbn [spec_bpp];
    rewrite ?(flat_pixel as_rgb (0, 0, 0, 0) 3 px w h), ?(flat_pixel as_bgr (0, 0, 0, 0) 3 px w h),
      ?(flat_pixel as_rgba (0, 0, 0, 0) 4 px w h), ?(flat_pixel as_bgra (0, 0, 0, 0) 4 px w h),
      ?(flat_pixel as_ycbcr (0, 0, 0, 0) 3 px w h), ?(flat_pixel as_cmyk (0, 0, 0, 0) 4 px w h),
      ?(flat_pixel as_ycck (0, 0, 0, 0) 4 px w h) by (try apply V; try len; lia);
    destruct (nth (Z.to_nat (y * w + x)) px (0, 0, 0, 0)) as [[[? ?] ?] ?];
    (apply cases3 in Hi as [-> | [-> | ->]] || apply cases4 in Hi as [-> | [-> | [-> | ->]]]); reflexivity.

  (** Alpha is ignored. *)
  Theorem C23_rgba : exec (run_encode P quality calls (flat_map as_rgba px) w h Rgba)
    = exec (run_encode P quality calls (flat_map as_rgb px) w h Rgb).
  Proof. apply encode_same; [exact Hc|now apply valid_rgba|now apply valid_rgb|reflexivity|planes_eq idtac]. Qed.
  Theorem C23_bgra : exec (run_encode P quality calls (flat_map as_bgra px) w h Bgra)
    = exec (run_encode P quality calls (flat_map as_rgb px) w h Rgb).
  Proof. apply encode_same; [exact Hc|now apply valid_bgra|now apply valid_rgb|reflexivity|planes_eq idtac]. Qed.
  (** Channel order. *)
  Theorem C23_bgr : exec (run_encode P quality calls (flat_map as_bgr px) w h Bgr)
    = exec (run_encode P quality calls (flat_map as_rgb px) w h Rgb).
  Proof. apply encode_same; [exact Hc|now apply valid_bgr|now apply valid_rgb|reflexivity|planes_eq idtac]. Qed.
  (** Converting first gives the same file. *)
  Theorem C23_ycbcr : exec (run_encode P quality calls (flat_map as_ycbcr px) w h Ycbcr)
    = exec (run_encode P quality calls (flat_map as_rgb px) w h Rgb).
  Proof. apply encode_same; [exact Hc|now apply valid_ycbcr|now apply valid_rgb|reflexivity|planes_eq idtac]. Qed.
  Theorem C23_ycck : exec (run_encode P quality calls (flat_map as_ycck px) w h Ycck)
    = exec (run_encode P quality calls (flat_map as_cmyk px) w h CmykAsYcck).
  Proof. apply encode_same; [exact Hc|now apply valid_ycck|now apply valid_cmyk|reflexivity|planes_eq idtac]. Qed.
End C23.
Example C23_case : valid_pixels debug64 [(1, 2, 3, 4); (255, 254, 253, 0); (9, 8, 7, 6)] 3 1.
Proof. constructor; try (cbn; lia). - now right. - repeat constructor; unfold is_u8; lia. Qed.

(** ** C25: geometry *)
Definition ceil_quot (a b : Z) : Z := (a + b - 1) / b.
(** The file has the dimensions and components of the image; component [c] (with sampling factors
    [co_h c] x [co_v c]) has ceil(ceil(w * co_h / hmax) / 8) blocks per row and likewise rows of blocks
    (T.81 A.1.1, A.2.4; the decoder accepts a scan only if it has exactly these blocks, in the order of
    A.2); row [y], column [x] of block (by, bx) is the component's sample at image row
    (8 by + y) * (vmax / co_v) and column (8 bx + x) * (hmax / co_h), the last row and column being
    repeated beyond the image. *)
Theorem C25_geometry : forall P quality calls im pl,
  std_config quality calls -> valid_buffer P im pl ->
  let s := settings_of quality calls in
  let w := im_width im in
  let h := im_height im in
  exists bytes j,
    exec (run_encode_image P quality calls im) = (bytes, Ok tt) /\ decode bytes = Some j /\
    fr_width (j_frame j) = w /\ fr_height (j_frame j) = h /\
    fr_comps (j_frame j) = comps_of (s_sampling s) (im_color im) /\
    forall ci c, nth_error (fr_comps (j_frame j)) ci = Some c ->
      let H := hmax (j_frame j) in
      let V := vmax (j_frame j) in
      forall by_ bx k,
        0 <= by_ < ceil_quot (ceil_quot (h * co_v c) V) 8 ->
        0 <= bx < ceil_quot (ceil_quot (w * co_h c) H) 8 ->
        0 <= k < 64 ->
        let '(v, u) := zigzag_pos k in
        coef j ci by_ bx k = Some
          (int_quantize (8 * quantizer s (co_tq c) (Z.of_nat (8 * v + u)))
            (int_dct (fun y x =>
               pl ci (Z.min (h - 1) ((8 * by_ + Z.of_nat y) * (V / co_v c)))
                     (Z.min (w - 1) ((8 * bx + Z.of_nat x) * (H / co_h c))) - 128) v u)).
Proof.
  intros P quality calls im pl C V s w h.
  destruct (C01_round_trip_image P quality calls im pl C V) as (bytes & j & E & _ & D & A).
  exists bytes, j. split; [exact E|]. split; [exact D|]. pose proof (da_frame _ _ _ _ _ _ _ A) as F.
  fold s w h in A, F. rewrite F. repeat split.
  intros ci c Hc H0 V0 by_ bx k Hby Hbx Hk. cbn [frame_for fr_comps] in Hc.
  destruct (zigzag_pos k) as [v u] eqn:Z0.
  rewrite (da_coef _ _ _ _ _ _ _ A ci c by_ bx k Hc).
  - unfold expected. rewrite Z0. reflexivity.
  - rewrite F. exact Hby.
  - rewrite F. exact Hbx.
  - exact Hk.
Qed.
