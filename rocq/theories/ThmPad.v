(** C67: pixels beyond the edge of the image repeat the last column and row; continuing an image this way changes
    nothing but the dimensions in the file. *)
From Verif Require Import MAvx2 T81 SFile SApi SEncode SHuff SMeta SPad PQuant PApi PExec PEncode PBytesF PRound PGeom PPad PAvxDct ThmRound ThmAvx2 ThmAll ThmLocal ThmSizeS.
From Coq Require Import ZArith List Bool Lia ZifyBool ZifyNat.
Import ListNotations.
Open Scope Z_scope.

Lemma file_dims t s color w h cf : let f := frame_for s color w h in
  render_file (file_parts t s f color cf) = up_to_dimensions s color ++ [h / 256; h mod 256; w / 256; w mod 256] ++
    ([Z.of_nat (length (fr_comps f))] ++ flat_map (fun c => [co_id c; 16 * co_h c + co_v c; co_tq c]) (fr_comps f) ++
     flat_map render ([dqt s 0; dqt s 1; dht 0 0 (tb_dc t 0); dht 1 0 (tb_ac t 0)] ++
       (if (3 <=? length (fr_comps f))%nat then [dht 0 1 (tb_dc t 1); dht 1 1 (tb_ac t 1)] else []) ++ dri (s_restart s) ++
       map (fun si => Scan (scan_header f si) (scan_data t f (s_restart s) cf si)) (scan_script s color)) ++ [255; 217]).
Proof.
  intros f. unfold render_file, file_parts, up_to_dimensions. rewrite flat_map_app.
  assert (Em : flat_map render (map (fun '(nr, data) => Segment (224 + nr) data) (apps_for s color)) = metadata s color).
  { unfold metadata. induction (apps_for s color) as [|[nr d] l IH]; [reflexivity|]. cbn [map flat_map]. rewrite IH. reflexivity. }
  rewrite Em. rewrite <- !app_assoc. f_equal. f_equal.
  match goal with |- flat_map render ([?a; ?b; ?c; ?d; ?e] ++ ?r) ++ _ = _ => change ([a; b; c; d; e] ++ r) with (a :: ([b; c; d; e] ++ r)) end.
  cbn [flat_map]. set (R := flat_map render _). clearbody R.
  assert (Es : render (sof f) = [255; match s_scans s with Some _ => 194 | None => 192 end; 0; 8 + 3 * Z.of_nat (length (comps_of (s_sampling s) color)); 8]
    ++ [h / 256; h mod 256; w / 256; w mod 256] ++ [Z.of_nat (length (fr_comps f))] ++ flat_map (fun c => [co_id c; 16 * co_h c + co_v c; co_tq c]) (fr_comps f)).
  { unfold sof. cbn [render]. unfold f. cbn [frame_for fr_progressive fr_width fr_height fr_comps]. set (cl := comps_of (s_sampling s) color).
    assert (L : (1 <= length cl <= 4)%nat) by (unfold cl, comps_of; destruct (factors (s_sampling s)), color; cbn [length]; lia).
    assert (Lf : forall l : list comp, length (flat_map (fun c => [co_id c; 16 * co_h c + co_v c; co_tq c]) l) = (3 * length l)%nat).
    { induction l as [|c l IH]; [reflexivity|]. cbn [flat_map]. rewrite app_length, IH. cbn [length]. lia. }
    unfold length_field, u16_bytes.
    cbn [app]. cbn [length]. rewrite Lf. destruct (s_scans s); repeat (f_equal; try lia). }
  rewrite Es. rewrite <- !app_assoc. reflexivity.
Qed.

Lemma fills_cdiv w w2 : w <= w2 <= 8 * cdiv w 8 -> cdiv w2 8 = cdiv w 8.
Proof. intros H. apply cdiv_unique; [lia|]. pose proof (cdiv_spec w 8 ltac:(lia)). lia. Qed.
(** The coefficients of all blocks agree, also those that fill up the last MCUs. *)
Lemma pad_expected F T s color pl pl2 w h w2 h2 : transform_is F T -> 1 <= w -> 1 <= h -> w <= w2 -> h <= h2 -> continues color pl pl2 w h w2 h2 ->
  forall ci c y x k, nth_error (comps_of (s_sampling s) color) ci = Some c -> 0 <= y -> 0 <= x -> 0 <= k < 64 ->
    expected T s color pl w h ci c y x k = expected T s color pl2 w2 h2 ci c y x k.
Proof.
  intros HF Hw Hh Hw2 Hh2 Hc ci c y x k N Hy Hx Hk. unfold expected.
  change (hmax (frame_for s color w2 h2)) with (hmax (frame_for s color w h)). change (vmax (frame_for s color w2 h2)) with (vmax (frame_for s color w h)).
  assert (Hs : 0 <= hmax (frame_for s color w h) / co_h c /\ 0 <= vmax (frame_for s color w h) / co_v c).
  { apply nth_error_In in N. clear - N. destruct color, (s_sampling s) eqn:Es; unfold frame_for, hmax, vmax; cbn [fr_comps]; rewrite Es;
      cbn in N; repeat destruct N as [<-|N]; try (vm_compute; split; discriminate); destruct N. }
  pose proof (zigzag_pos_range k Hk) as Hz. destruct (zigzag_pos k) as [v u]. f_equal.
  apply (transform_ext F T _ _ v u HF); [apply Hz|apply Hz|]. intros y' x' _ _. unfold block_sample. f_equal.
  destruct Hs as [S1 S2]. set (hs := hmax _ / _) in *. set (vs := vmax _ / _) in *. clearbody hs vs.
  assert (Hn : Z.of_nat ci < num_components color).
  { assert (L : (ci < length (comps_of (s_sampling s) color))%nat) by (apply nth_error_Some; congruence).
    clear - L. unfold comps_of in L. destruct (factors (s_sampling s)), color; cbn [length] in L; cbn [num_components]; lia. }
  rewrite Hc by (first [exact Hn|split; [apply Z.min_glb; [lia|apply Z.mul_nonneg_nonneg; lia]|lia]]). f_equal; lia.
Qed.

Lemma pad_core P op F T s im im2 pl pl2 : plat_ok P -> settings_wf s -> op_ok op F -> transform_is F T -> image_ok im pl -> image_ok im2 pl2 ->
  im_color im2 = im_color im -> let color := im_color im in let w := im_width im in let h := im_height im in let w2 := im_width im2 in let h2 := im_height im2 in
  w * h < 2 ^ (ubits P - 1) -> w2 * h2 < 2 ^ (ubits P - 1) -> (s_optimize s = true -> countable s color w h) -> (s_optimize s = true -> countable s color w2 h2) ->
  fills_up w h w2 h2 -> continues color pl pl2 w h w2 h2 ->
  same_but_dimensions (Ok tt) s color w h w2 h2 (exec (encode_image_internal P op (enc_of s) im)) (exec (encode_image_internal P op (enc_of s) im2)).
Proof.
  intros HP Hs Hop HF Him Him2 Ec color w h w2 h2 Hfit Hfit2 Hfew Hfew2 [Fw Fh] Hc.
  assert (Hw : 1 <= w) by apply Him. assert (Hh : 1 <= h) by apply Him.
  pose proof (pad_expected F T s color pl pl2 w h w2 h2 HF Hw Hh (proj1 Fw) (proj1 Fh) Hc) as He.
  pose proof (fills_cdiv _ _ Fw) as Ew. pose proof (fills_cdiv _ _ Fh) as Eh.
  assert (G : forall t, differ_in_dimensions s color w h w2 h2 (render_file (file_parts t s (frame_for s color w h) color (spec_cf s T im pl)))
                                                              (render_file (file_parts t s (frame_for s color w2 h2) color (spec_cf s T im2 pl2)))).
  { intros t. rewrite !file_dims. cbv zeta.
    pose proof (scans_grid s Hs T im im2 pl pl2 Ec Ew Eh He t) as Es. cbv zeta in Es. fold color w h w2 h2 in Es.
    rewrite Es. eexists. split; reflexivity. }
  split.
  - intros b E. destruct (same_grid s Hs op F T Hop HF im im2 pl pl2 Him Him2 Ec Ew Eh He P b HP Hfit Hfit2 Hfew E) as (t & -> & E2).
    eexists. split; [exact E2|apply G].
  - intros b2 E. pose proof (same_grid s Hs op F T Hop HF im2 im pl2 pl Him2 Him (eq_sym Ec) (eq_sym Ew) (eq_sym Eh)) as S. rewrite Ec in S.
    destruct (S (fun ci c y x k N Hy Hx Hk => eq_sym (He ci c y x k N Hy Hx Hk)) P b2 HP Hfit2 Hfit Hfew2 E) as (t & -> & E2).
    eexists. split; [exact E2|apply G].
Qed.

Lemma continues_planes c data data2 w h w2 h2 : continues_bytes (spec_bpp c) data data2 w h w2 h2 ->
  continues (spec_color c) (spec_plane c data w) (spec_plane c data2 w2) w h w2 h2.
Proof.
  intros H i y x Hi Hy Hx. unfold spec_plane.
  assert (E : forall k, 0 <= k < spec_bpp c -> pixel_byte data2 w2 (spec_bpp c) y x k = pixel_byte data w (spec_bpp c) (Z.min (h - 1) y) (Z.min (w - 1) x) k)
    by (intros k Hk; now apply H).
  destruct c; cbn [spec_bpp spec_color num_components] in *; rewrite ?E by lia; reflexivity.
Qed.

(** ** C67 *)
Theorem C67_padding : forall P quality calls data data2 w h w2 h2 c, let s := settings_of quality calls in
  valid_call P quality calls data w h c -> valid_call P quality calls data2 w2 h2 c ->
  fills_up w h w2 h2 -> continues_bytes (spec_bpp c) data data2 w h w2 h2 ->
  same_but_dimensions (Ok tt) s (spec_color c) w h w2 h2 (exec (run_encode P quality calls data w h c)) (exec (run_encode P quality calls data2 w2 h2 c)).
Proof.
  intros P quality calls data data2 w h w2 h2 c s [C V Hfew] [_ V2 Hfew2] Hf Hc. rewrite !run_encode_eq by assumption. fold s.
  pose proof (pad_core P default_operations fdct_pure int_dct s (image_of P data w h c) (image_of P data2 w2 h2 c) _ _ (vi_platform _ _ _ _ _ V) (settings_of_wf quality calls C)
    default_op_ok fdct_is_int_dct (valid_image _ _ _ _ _ V) (valid_image _ _ _ _ _ V2)) as G.
  rewrite !image_of_width, !image_of_height, !image_of_color in G.
  exact (G eq_refl (proj1 (valid_fits _ _ _ _ _ V)) (proj1 (valid_fits _ _ _ _ _ V2)) Hfew Hfew2 Hf (continues_planes _ _ _ _ _ _ _ Hc)).
Qed.
Theorem C67_padding_simd : forall P quality calls data data2 w h w2 h2 c, let s := settings_of quality calls in
  valid_call P quality calls data w h c -> valid_call P quality calls data2 w2 h2 c ->
  fills_up w h w2 h2 -> continues_bytes (spec_bpp c) data data2 w h w2 h2 ->
  same_but_dimensions (Ok tt) s (spec_color c) w h w2 h2 (exec (run_encode_avx2 P quality calls data w h c)) (exec (run_encode_avx2 P quality calls data2 w2 h2 c)).
Proof.
  intros P quality calls data data2 w h w2 h2 c s [C V Hfew] [_ V2 Hfew2] Hf Hc. rewrite !run_avx2_eq by assumption. fold s.
  pose proof (pad_core P avx2_operations avx2_pure avx2_dct s (image_of P data w h c) (image_of P data2 w2 h2 c) _ _ (vi_platform _ _ _ _ _ V) (settings_of_wf quality calls C)
    avx2_op_ok avx2_is_dct (valid_image _ _ _ _ _ V) (valid_image _ _ _ _ _ V2)) as G.
  rewrite !image_of_width, !image_of_height, !image_of_color in G.
  exact (G eq_refl (proj1 (valid_fits _ _ _ _ _ V)) (proj1 (valid_fits _ _ _ _ _ V2)) Hfew Hfew2 Hf (continues_planes _ _ _ _ _ _ _ Hc)).
Qed.
Theorem C67_padding_image : forall P quality calls im pl im2 pl2, let s := settings_of quality calls in
  let color := im_color im in let w := im_width im in let h := im_height im in let w2 := im_width im2 in let h2 := im_height im2 in
  Forall call_wf calls -> valid_buffer P im pl -> valid_buffer P im2 pl2 -> im_color im2 = color ->
  (s_optimize s = true -> countable s color w h) -> (s_optimize s = true -> countable s color w2 h2) ->
  fills_up w h w2 h2 -> continues color pl pl2 w h w2 h2 ->
  same_but_dimensions (Ok tt) s color w h w2 h2 (exec (run_encode_image P quality calls im)) (exec (run_encode_image P quality calls im2)) /\
  same_but_dimensions (Ok tt) s color w h w2 h2 (exec (run_encode_image_avx2 P quality calls im)) (exec (run_encode_image_avx2 P quality calls im2)).
Proof.
  intros P quality calls im pl im2 pl2 s color w h w2 h2 C V V2 Ec Hfew Hfew2 Hf Hc. split.
  - rewrite !run_encode_image_eq by assumption.
    exact (pad_core P default_operations fdct_pure int_dct s im im2 pl pl2 (vb_platform _ _ _ V) (settings_of_wf quality calls C) default_op_ok fdct_is_int_dct
      (vb_image _ _ _ V) (vb_image _ _ _ V2) Ec (vb_fits _ _ _ V) (vb_fits _ _ _ V2) Hfew Hfew2 Hf Hc).
  - rewrite !run_image_avx2_eq by assumption.
    exact (pad_core P avx2_operations avx2_pure avx2_dct s im im2 pl pl2 (vb_platform _ _ _ V) (settings_of_wf quality calls C) avx2_op_ok avx2_is_dct
      (vb_image _ _ _ V) (vb_image _ _ _ V2) Ec (vb_fits _ _ _ V) (vb_fits _ _ _ V2) Hfew Hfew2 Hf Hc).
Qed.

(** ** A concrete case: three by two RGB pixels continued to seven by five, optimized tables and progressive. *)
Definition pad_bytes : list Z := flat_map (fun y => flat_map (fun x => map (fun k => pixel_byte ex_data 3 3 (Z.min 1 y) (Z.min 2 x) k) (upto 3)) (upto 7)) (upto 5).
Example C67_case : exists b b2 rest, let head := up_to_dimensions (settings_of 60 [COptimize true; CScans 4]) JYcbcr in
  exec (run_encode debug64 60 [COptimize true; CScans 4] ex_data 3 2 Rgb) = (b, Ok tt) /\
  exec (run_encode debug64 60 [COptimize true; CScans 4] pad_bytes 7 5 Rgb) = (b2, Ok tt) /\
  b = head ++ [0; 2; 0; 3] ++ rest /\ b2 = head ++ [0; 5; 0; 7] ++ rest.
Proof.
  destruct (C67_padding debug64 60 [COptimize true; CScans 4] ex_data pad_bytes 3 2 7 5 Rgb) as [G _].
  - constructor; [repeat (constructor; [cbn; unfold is_u16; try exact I; lia|]); constructor| |intros _; vm_compute; reflexivity].
    constructor; try (vm_compute; split; discriminate); [now right| |vm_compute; discriminate]. apply bytes_by_check. vm_compute. reflexivity.
  - constructor; [repeat (constructor; [cbn; unfold is_u16; try exact I; lia|]); constructor| |intros _; vm_compute; reflexivity].
    constructor; try (vm_compute; split; discriminate); [now right| |vm_compute; discriminate]. apply bytes_by_check. vm_compute. reflexivity.
  - vm_compute. repeat split; discriminate.
  - intros y x k Hy Hx Hk. cbn [spec_bpp] in *.
    assert (A : forallb (fun y => forallb (fun x => forallb (fun k => pixel_byte pad_bytes 7 3 y x k =? pixel_byte ex_data 3 3 (Z.min (2 - 1) y) (Z.min (3 - 1) x) k) (upto 3)) (upto 7)) (upto 5) = true)
      by (vm_compute; reflexivity).
    assert (I : forall n v, 0 <= v < n -> In v (upto n)).
    { intros n v Hv. unfold upto. apply in_map_iff. exists (Z.to_nat v). split; [lia|]. apply in_seq. lia. }
    rewrite forallb_forall in A. specialize (A y (I 5 y Hy)). rewrite forallb_forall in A. specialize (A x (I 7 x Hx)). rewrite forallb_forall in A. specialize (A k (I 3 k Hk)). lia.
  - assert (E : exists b, exec (run_encode debug64 60 [COptimize true; CScans 4] ex_data 3 2 Rgb) = (b, Ok tt)).
    { assert (K : match snd (exec (run_encode debug64 60 [COptimize true; CScans 4] ex_data 3 2 Rgb)) with Ok tt => true | _ => false end = true) by (vm_compute; reflexivity).
      destruct (exec (run_encode debug64 60 [COptimize true; CScans 4] ex_data 3 2 Rgb)) as [b [[]| |]]; try discriminate K. now exists b. }
    destruct E as (b & E). destruct (G b E) as (b2 & E2 & rest & X & Y). exists b, b2, rest. split; [exact E|]. split; [exact E2|]. split; [exact X|exact Y].
Qed.
