(** C74: the restart interval changes nothing before the scans but the DRI segment, and nothing at all in scans that it does not interrupt. *)
From Verif Require Import T81 SFile SEncode SHuff SAvx2 SSize SRestart SDecide SAnnexK2 SUnbroken MAvx2 PAvx2 PAvxDct PSmall PRest PDecide PCount PMax
  ThmRound ThmScan ThmHuff ThmBytes ThmRestart ThmDecide ThmAvx2 ThmAll ThmGrey ThmLocal ThmBright ThmAnnexK2.
From Coq Require Import ZArith List Bool Lia.
Import ListNotations.
Open Scope Z_scope.

Lemma group_one {A} n (l : list A) : l <> [] -> (length l <= n)%nat -> group (length l) n l = [l].
Proof.
  intros Hl Hn. destruct l as [|a l]; [contradiction|]. cbn [length group]. rewrite firstn_all2 by exact Hn. rewrite skipn_all2 by exact Hn.
  destruct (length l); reflexivity.
Qed.
Lemma unbroken_intervals s color w h si : 1 <= w <= 65535 -> 1 <= h <= 65535 -> unbroken s color w h -> In si (scan_script s color) ->
  intervals (s_restart s) (mcus_of (frame_for s color w h) si) = [mcus_of (frame_for s color w h) si].
Proof.
  intros Hw Hh U I. unfold intervals. destruct (Z.eqb_spec (s_restart s) 0) as [E|E]; [reflexivity|]. destruct U as [U|U]; [contradiction|].
  specialize (U si I). apply group_one; [|lia].
  apply mcus_nonempty; try assumption. now apply script_comps.
Qed.
Lemma dri_render ri : 0 <= ri < 65536 -> flat_map render (dri ri) = dri_bytes ri.
Proof. intros H. unfold dri, dri_bytes. destruct (ri =? 0); reflexivity. Qed.
Lemma script_nonempty s color : exists si l, scan_script s color = si :: l.
Proof.
  unfold scan_script. destruct (factors (s_sampling s)) as [fh fv] eqn:E. unfold comps_of. rewrite E.
  destruct (s_scans s); [|destruct (negb (s_optimize s) && (fh <=? 2) && (fv <=? 2))]; destruct color; cbn; eauto.
Qed.
Lemma unbroken_with T P P' s s' op F im im' pl bytes bytes' : settings_wf s -> settings_wf s' -> op_ok op F -> transform_is F T ->
  plat_ok P -> image_ok im pl -> im_width im * im_height im < 2 ^ (ubits P - 1) ->
  plat_ok P' -> image_ok im' pl -> im_width im' * im_height im' < 2 ^ (ubits P' - 1) ->
  im_width im' = im_width im -> im_height im' = im_height im -> im_color im' = im_color im ->
  (s_optimize s = true -> countable s (im_color im) (im_width im) (im_height im)) ->
  same_but_restart s s' ->
  exec (encode_image_internal P op (enc_of s) im) = (bytes, Ok tt) ->
  exec (encode_image_internal P' op (enc_of s') im') = (bytes', Ok tt) ->
  differ_in_restart s s' (im_color im) (im_width im) (im_height im) bytes bytes'.
Proof.
  intros Hs Hs' Hop HF HP Him Hfit HP' Him' Hfit' Ew Eh Ec Hfew S E E'. destruct (dims _ _ Him) as [Hw Hh].
  assert (O' : s_optimize s' = s_optimize s) by (rewrite S; reflexivity).
  assert (Hfew' : s_optimize s' = true -> countable s' (im_color im') (im_width im') (im_height im')).
  { rewrite O', Ew, Eh, Ec. intros O. specialize (Hfew O). unfold countable in *. rewrite S. exact Hfew. }
  pose proof (bytes_with s op F T P im pl bytes Hs Hop HF HP Him Hfit Hfew E) as B.
  pose proof (bytes_with s' op F T P' im' pl bytes' Hs' Hop HF HP' Him' Hfit' Hfew' E') as B'. rewrite Ew, Eh, Ec in B'. clear E E' Hfew Hfew' Hfit Hfit' Ew Eh Ec.
  generalize dependent (im_width im). generalize dependent (im_height im). generalize dependent (im_color im). intros color h Hh w Hw B B'.
  assert (R : 0 <= s_restart s < 65536) by (pose proof (sw_restart s Hs) as R; unfold is_u16 in R; lia).
  assert (R' : 0 <= s_restart s' < 65536) by (pose proof (sw_restart s' Hs') as R'; unfold is_u16 in R'; lia).
  assert (TE : file_tables T s' color pl w h = file_tables T s color pl w h) by (unfold file_tables; rewrite O', S; reflexivity). rewrite TE in B'. clear TE.
  unfold jpeg_file_with in B, B'. set (t := file_tables T s color pl w h) in *. clearbody t.
  assert (FE : frame_for s' color w h = frame_for s color w h) by (rewrite S; reflexivity).
  assert (SE : scan_script s' color = scan_script s color) by (rewrite S; reflexivity).
  assert (DE : forall d, dqt s' d = dqt s d) by (intros d; rewrite S; reflexivity).
  assert (AE : apps_for s' color = apps_for s color) by (rewrite S; reflexivity).
  assert (CE : forall ci c y x k, expected T s' color pl w h ci c y x k = expected T s color pl w h ci c y x k) by (intros; rewrite S; reflexivity).
  rewrite FE in B'. 
  set (cf := fun (ci : nat) (y x k : Z) => match nth_error (fr_comps (frame_for s color w h)) ci with Some c => expected T s color pl w h ci c y x k | None => 0 end) in *.
  assert (CF : (fun (ci : nat) (y x k : Z) => match nth_error (fr_comps (frame_for s color w h)) ci with Some c => expected T s' color pl w h ci c y x k | None => 0 end) = cf) by (rewrite S; reflexivity).
  rewrite CF in B'. clear CF CE. clearbody cf.
  unfold render_file, file_parts in B, B'. rewrite AE, !DE, SE in B'. rewrite !flat_map_app in B, B'. rewrite !dri_render in B, B' by assumption.
  pose (hd := [255; 216] ++ flat_map render (map (fun '(nr, data) => Segment (224 + nr) data) (apps_for s color)) ++
    flat_map render [sof (frame_for s color w h); dqt s 0; dqt s 1; dht 0 0 (tb_dc t 0); dht 1 0 (tb_ac t 0)] ++
    flat_map render (if (3 <=? length (fr_comps (frame_for s color w h)))%nat then [dht 0 1 (tb_dc t 1); dht 1 1 (tb_ac t 1)] else [])).
  pose (sc := fun ri => flat_map render (map (fun si => Scan (scan_header (frame_for s color w h) si) (scan_data t (frame_for s color w h) ri cf si)) (scan_script s color)) ++ [255; 217]).
  assert (SC : forall ri, firstn 2 (sc ri) = [255; 218]) by (intros ri; unfold sc; destruct (script_nonempty s color) as (si & l & ->); reflexivity).
  exists hd, (sc (s_restart s)), (sc (s_restart s')).
  split; [rewrite B; unfold hd, sc; rewrite <- !app_assoc; reflexivity|]. split; [rewrite B'; unfold hd, sc; rewrite <- !app_assoc; reflexivity|].
  split; [apply SC|]. split; [apply SC|].
  intros U U'. unfold sc. f_equal. f_equal. apply map_ext_in. intros si I. f_equal. unfold scan_data.
  pose proof (unbroken_intervals s color w h si Hw Hh U I) as I1. pose proof (unbroken_intervals s' color w h si Hw Hh U' ltac:(rewrite SE; exact I)) as I2.
  rewrite FE in I2. rewrite I1, I2. reflexivity.
Qed.

(** Two successful calls with the same pixels and configurations that differ in the restart interval only, on any platforms. *)
Theorem C74_restart : forall P P' quality calls quality' calls' data w h c bytes bytes', let s := settings_of quality calls in let s' := settings_of quality' calls' in
  valid_call P quality calls data w h c -> valid_call P' quality' calls' data w h c -> same_but_restart s s' ->
  exec (run_encode P quality calls data w h c) = (bytes, Ok tt) ->
  exec (run_encode P' quality' calls' data w h c) = (bytes', Ok tt) ->
  differ_in_restart s s' (spec_color c) w h bytes bytes'.
Proof.
  intros P P' quality calls quality' calls' data w h c bytes bytes' s s' [C V Hfew] [C' V' _] S E E'. rewrite run_encode_eq in E, E' by assumption.
  pose proof (unbroken_with int_dct P P' s s' default_operations fdct_pure (image_of P data w h c) (image_of P' data w h c) (spec_plane c data w) bytes bytes'
    (settings_of_wf quality calls C) (settings_of_wf quality' calls' C') default_op_ok fdct_is_int_dct (vi_platform _ _ _ _ _ V) (valid_image _ _ _ _ _ V)) as G.
  rewrite !image_of_width, !image_of_height, !image_of_color in G.
  exact (G (proj1 (valid_fits _ _ _ _ _ V)) (vi_platform _ _ _ _ _ V') (valid_image _ _ _ _ _ V') (proj1 (valid_fits _ _ _ _ _ V')) eq_refl eq_refl eq_refl Hfew S E E').
Qed.
Theorem C74_restart_image : forall P P' quality calls quality' calls' im im' pl bytes bytes', let s := settings_of quality calls in let s' := settings_of quality' calls' in
  Forall call_wf calls -> valid_buffer P im pl -> Forall call_wf calls' -> valid_buffer P' im' pl ->
  im_width im' = im_width im -> im_height im' = im_height im -> im_color im' = im_color im ->
  (s_optimize s = true -> countable s (im_color im) (im_width im) (im_height im)) -> same_but_restart s s' ->
  exec (run_encode_image P quality calls im) = (bytes, Ok tt) ->
  exec (run_encode_image P' quality' calls' im') = (bytes', Ok tt) ->
  differ_in_restart s s' (im_color im) (im_width im) (im_height im) bytes bytes'.
Proof.
  intros P P' quality calls quality' calls' im im' pl bytes bytes' s s' C V C' V' Ew Eh Ec Hfew S E E'. rewrite run_encode_image_eq in E, E' by assumption.
  exact (unbroken_with int_dct P P' s s' default_operations fdct_pure im im' pl bytes bytes' (settings_of_wf quality calls C) (settings_of_wf quality' calls' C') default_op_ok fdct_is_int_dct
    (vb_platform _ _ _ V) (vb_image _ _ _ V) (vb_fits _ _ _ V) (vb_platform _ _ _ V') (vb_image _ _ _ V') (vb_fits _ _ _ V') Ew Eh Ec Hfew S E E').
Qed.
Theorem C74_restart_simd : forall P P' quality calls quality' calls' data w h c bytes bytes', let s := settings_of quality calls in let s' := settings_of quality' calls' in
  valid_call P quality calls data w h c -> valid_call P' quality' calls' data w h c -> same_but_restart s s' ->
  exec (run_encode_avx2 P quality calls data w h c) = (bytes, Ok tt) ->
  exec (run_encode_avx2 P' quality' calls' data w h c) = (bytes', Ok tt) ->
  differ_in_restart s s' (spec_color c) w h bytes bytes'.
Proof.
  intros P P' quality calls quality' calls' data w h c bytes bytes' s s' [C V Hfew] [C' V' _] S E E'. rewrite run_avx2_eq in E, E' by assumption.
  pose proof (unbroken_with avx2_dct P P' s s' avx2_operations avx2_pure (image_of P data w h c) (image_of P' data w h c) (spec_plane c data w) bytes bytes'
    (settings_of_wf quality calls C) (settings_of_wf quality' calls' C') avx2_op_ok avx2_is_dct (vi_platform _ _ _ _ _ V) (valid_image _ _ _ _ _ V)) as G.
  rewrite !image_of_width, !image_of_height, !image_of_color in G.
  exact (G (proj1 (valid_fits _ _ _ _ _ V)) (vi_platform _ _ _ _ _ V') (valid_image _ _ _ _ _ V') (proj1 (valid_fits _ _ _ _ _ V')) eq_refl eq_refl eq_refl Hfew S E E').
Qed.

(** A concrete case: a 9 x 17 picture of two MCUs; an interval of two MCUs interrupts no scan, one of a single MCU does. *)
Definition whole_cfg (ri : Z) : list call := [CSampling F_2_2; CRestart ri].
Lemma whole_valid ri : 0 <= ri < 65536 -> valid_call debug64 60 (whole_cfg ri) light_bytes 9 17 Rgb.
Proof.
  intros H. constructor; [repeat (constructor; [cbn; unfold is_u16; try exact I; lia|]); constructor| |discriminate].
  constructor; try (vm_compute; split; discriminate); [now right| |vm_compute; discriminate]. apply bytes_by_check. vm_compute. reflexivity.
Qed.
Example C74_case : let s ri := settings_of 60 (whole_cfg ri) in
  valid_call debug64 60 (whole_cfg 0) light_bytes 9 17 Rgb /\ valid_call debug64 60 (whole_cfg 2) light_bytes 9 17 Rgb /\
  same_but_restart (s 0) (s 2) /\ unbroken (s 0) JYcbcr 9 17 /\ unbroken (s 2) JYcbcr 9 17 /\ ~ unbroken (s 1) JYcbcr 9 17 /\
  (exists bytes, exec (run_encode debug64 60 (whole_cfg 0) light_bytes 9 17 Rgb) = (bytes, Ok tt)) /\
  (exists bytes, exec (run_encode debug64 60 (whole_cfg 2) light_bytes 9 17 Rgb) = (bytes, Ok tt)).
Proof.
  intros s. pose proof (whole_valid 0 ltac:(lia)) as V0. pose proof (whole_valid 2 ltac:(lia)) as V2.
  split; [exact V0|]. split; [exact V2|]. split; [reflexivity|]. split; [left; reflexivity|].
  split; [right; intros si H; cbn in H; destruct H as [<-|[]]; vm_compute; discriminate|].
  split; [intros [H|H]; [discriminate H|]; specialize (H _ (or_introl eq_refl)); revert H; vm_compute; intros H; apply H; reflexivity|].
  split; (eexists; apply C40_exact_bytes; [apply V0 + apply V2|reflexivity|apply V0 + apply V2]).
Qed.
