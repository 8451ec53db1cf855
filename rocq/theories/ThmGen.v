(** C57: encoding a decoded image again. *)
From Coq Require Import Reals Lra.
From Verif Require Import MApi MFdct MAvx2 SApi SHuff SDct SReal SAvx2 SFile SSize SGen PReal PIdct PRound PAvx2 PAvxDct PFdct PBytesF PSame PPix PPlat T81
  ThmRound ThmHuff ThmQuant ThmAvx2 SDecide ThmDecide ThmReal ThmAll ThmLocal.
From Coq Require Import ZArith List Bool Lia ZifyBool ZifyNat.
Import ListNotations.

(** ** The quantizer: steps from 11 on absorb an error of 35 eighths. *)
Open Scope Z_scope.
Definition absorbs (q : Z) : bool :=
  forallb (fun c => (int_quantize (8 * q) (8 * q * c - 35) =? c) && (int_quantize (8 * q) (8 * q * c + 35) =? c)) (upto (8230 / (8 * q) + 1)).
Lemma all_absorb : forallb absorbs (map (fun n => n + 11) (upto 2038)) = true.
Proof. vm_compute. reflexivity. Qed.
Lemma absorb_pos q c v : 11 <= q <= 2048 -> 0 <= c -> v <= 8193 -> Z.abs (v - 8 * q * c) <= 35 -> int_quantize (8 * q) v = c.
Proof.
  intros Hq Hc Hv Hd. pose proof all_absorb as A. rewrite forallb_forall in A. specialize (A q).
  assert (I : In q (map (fun n => n + 11) (upto 2038))).
  { apply in_map_iff. exists (q - 11). split; [lia|]. unfold upto. apply in_map_iff. exists (Z.to_nat (q - 11)). split; [lia|]. apply in_seq. lia. }
  specialize (A I). unfold absorbs in A. rewrite forallb_forall in A. specialize (A c).
  assert (J : In c (upto (8230 / (8 * q) + 1))).
  { assert (c <= 8230 / (8 * q)) by (apply Z.div_le_lower_bound; nia).
    unfold upto. apply in_map_iff. exists (Z.to_nat c). split; [lia|]. apply in_seq. lia. }
  specialize (A J). apply andb_prop in A as [A1 A2]. apply Z.eqb_eq in A1, A2.
  pose proof (C15_monotone (8 * q) (8 * q * c - 35) v ltac:(lia) ltac:(lia)).
  pose proof (C15_monotone (8 * q) v (8 * q * c + 35) ltac:(lia) ltac:(lia)). lia.
Qed.
Lemma absorb q c v : 11 <= q <= 2048 -> -8193 <= v <= 8193 -> Z.abs (v - 8 * q * c) <= 35 -> int_quantize (8 * q) v = c.
Proof.
  intros Hq Hv Hd. destruct (Z.le_gt_cases 0 c) as [Hc|Hc]; [apply absorb_pos; lia|].
  replace v with (- - v) by lia. rewrite C15_odd. rewrite (absorb_pos q (- c) (- v)) by lia. lia.
Qed.

(** ** The transform: samples within 1/2 of the reconstruction give coefficients within 4. *)
Open Scope R_scope.
Lemma energy_one e v u : (v < 8)%nat -> (u < 8)%nat -> e v u * e v u <= energy e.
Proof.
  intros Hv Hu. unfold energy.
  eapply Rle_trans; [|apply (one_of_sum (fun y => rsum8 (fun x => e y x * e y x)) v Hv)].
  - apply (one_of_sum (fun x => e v x * e v x) u Hu). intros k _. nra.
  - intros k _. unfold rsum8. pose proof (Rle_0_sqr (e k 0%nat)); pose proof (Rle_0_sqr (e k 1%nat)); pose proof (Rle_0_sqr (e k 2%nat));
    pose proof (Rle_0_sqr (e k 3%nat)); pose proof (Rle_0_sqr (e k 4%nat)); pose proof (Rle_0_sqr (e k 5%nat));
    pose proof (Rle_0_sqr (e k 6%nat)); pose proof (Rle_0_sqr (e k 7%nat)). unfold Rsqr in *. lra.
Qed.
Lemma dct_near smp D v u : (v < 8)%nat -> (u < 8)%nat ->
  (forall y x, (y < 8)%nat -> (x < 8)%nat -> Rabs (smp y x - exact_idct D y x) <= / 2) -> Rabs (exact_dct smp v u - D v u) <= 4.
Proof.
  intros Hv Hu H. set (E := fun v u => exact_dct smp v u - D v u).
  assert (B : energy E <= 16).
  { rewrite <- idct_energy. eapply Rle_trans; [apply (energy_le _ (fun _ _ => / 2))|].
    - intros y x Hy Hx. unfold E. rewrite <- idct_minus, idct_dct by assumption. now apply H.
    - unfold energy, rsum8. lra. }
  pose proof (energy_one E v u Hv Hu) as O. fold (E v u). clearbody E.
  apply Rabs_le. split; nra.
Qed.

(** Generic in the transform. *)
Lemma reencode T e s color w h pl j ci c by_ bx k v :
  close_transform T e -> e < 4 -> (1 <= w)%Z -> (1 <= h)%Z ->
  (forall i y x, (i < length (comps_of (s_sampling s) color))%nat -> (0 <= y < h)%Z -> (0 <= x < w)%Z -> (0 <= pl i y x <= 255)%Z) ->
  coarse s color -> j_frame j = frame_for s color w h -> same_tables s color j ->
  nth_error (comps_of (s_sampling s) color) ci = Some c -> (0 <= by_)%Z -> (0 <= bx)%Z -> (0 <= k < 64)%Z ->
  rounded pl j ci c by_ bx -> coef j ci by_ bx k = Some v -> expected T s color pl w h ci c by_ bx k = v.
Proof.
  intros HT He Hw Hh Hpl Hq Ef Hqt Hc Hby Hbx Hk Hr Hv.
  assert (Hci : (ci < length (comps_of (s_sampling s) color))%nat) by (apply nth_error_Some; congruence).
  set (f := frame_for s color w h) in *.
  set (bs := block_sample pl w h (hmax f / co_h c) (vmax f / co_v c) ci by_ bx).
  assert (Hpos : (0 <= hmax f / co_h c /\ 0 <= vmax f / co_v c)%Z).
  { destruct (steps_exact s color w h c) as (P1 & P2 & P3 & P4 & _); [exact (nth_error_In _ _ Hc)|]. 
    unfold SLocal.step_x, SLocal.step_y in P3, P4. fold f in P3, P4. lia. }
  assert (Hbs : forall y x, (y < 8)%nat -> (x < 8)%nat -> (-128 <= bs y x <= 127)%Z).
  { intros y x Hy Hx. unfold bs, block_sample.
    assert (N1 : (0 <= (8 * by_ + Z.of_nat y) * (vmax f / co_v c))%Z) by (apply Z.mul_nonneg_nonneg; lia).
    assert (N2 : (0 <= (8 * bx + Z.of_nat x) * (hmax f / co_h c))%Z) by (apply Z.mul_nonneg_nonneg; lia).
    pose proof (Hpl ci (Z.min (h - 1) ((8 * by_ + Z.of_nat y) * (vmax f / co_v c))) (Z.min (w - 1) ((8 * bx + Z.of_nat x) * (hmax f / co_h c))) Hci ltac:(lia) ltac:(lia)). lia. }
  unfold expected. fold f. pose proof (zigzag_pos_range k Hk) as Hz. destruct (zigzag_pos k) as [v' u'] eqn:Ez. fold bs. destruct Hz as [Hv' Hu'].
  assert (Hnear : Rabs (exact_dct (fun y x => IZR (bs y x)) v' u' - dequantized j ci by_ bx v' u') <= 4).
  { apply dct_near; [exact Hv'|exact Hu'|]. intros y x Hy Hx. specialize (Hr y x Hy Hx). unfold reconstructed in Hr. rewrite Ef in Hr.
    change (IZR (bs y x)) with (IZR (sample_at pl f ci c by_ bx y x - 128)). rewrite minus_IZR.
    replace (IZR (sample_at pl f ci c by_ bx y x) - 128 - exact_idct (dequantized j ci by_ bx) y x)
      with (IZR (sample_at pl f ci c by_ bx y x) - (exact_idct (dequantized j ci by_ bx) y x + 128)) by ring. exact Hr. }
  set (q := quantizer s (co_tq c) (Z.of_nat (8 * v' + u'))).
  assert (Hd : dequantized j ci by_ bx v' u' = IZR (v * q)).
  { unfold dequantized. assert (Zi : Z.of_nat (zigzag_index v' u') = k).
    { pose proof (below64 (fun k => let '(v, u) := zigzag_pos k in Z.of_nat (zigzag_index v u) =? k)%Z ltac:(vm_compute; reflexivity) k Hk) as Z1.
      cbv beta in Z1. rewrite Ez in Z1. apply Z.eqb_eq. exact Z1. }
    rewrite Zi, Hv, (Hqt ci c Hc). f_equal. f_equal.
    set (g := fun '(v, u) => quantizer s (co_tq c) (Z.of_nat (8 * v + u))).
    rewrite (nth_indep _ 0%Z (g (0, 0)%nat)) by (rewrite map_length; change (length zigzag) with 64%nat; lia).
    rewrite map_nth. unfold zigzag_pos in Ez. replace (zigzag_index v' u') with (Z.to_nat k) by lia. rewrite Ez. reflexivity. }
  rewrite Hd in Hnear. destruct (HT bs Hbs v' u' Hv' Hu') as [C1 C2]. set (t := T bs v' u') in *. clearbody t.
  apply absorb; [split; [apply Hq; [exact (nth_error_In _ _ Hc)|lia]|apply quantizer_range]|exact C2|].
  set (X := exact_dct (fun y x => IZR (bs y x)) v' u') in *. clearbody X.
  assert (B : Rabs (IZR (t - 8 * q * v)) < 36).
  { rewrite minus_IZR, !mult_IZR. rewrite mult_IZR in Hnear.
    apply unabs in C1. apply unabs in Hnear. apply Rabs_def1; lra. }
  apply Rabs_def2 in B as [B1 B2]. apply lt_IZR in B1. change (-36) with (IZR (-36)) in B2. rewrite <- opp_IZR in B2. apply lt_IZR in B2. lia.
Qed.

(** ** Blocks of whole MCUs *)
Open Scope Z_scope.
Lemma cdiv_mul a b : 0 < b -> cdiv (b * a) b = a.
Proof. intros Hb. unfold cdiv. symmetry. apply (Z.div_unique _ b a (b - 1)); lia. Qed.
Lemma whole_blocks s color w h c : let f := frame_for s color w h in In c (fr_comps f) -> whole_mcus f ->
  blocks_high f c = mcus_high f * co_v c /\ blocks_wide f c = mcus_wide f * co_h c.
Proof.
  intros f Hc [Ww Wh]. destruct (steps_exact s color w h c Hc) as (P1 & P2 & P3 & P4 & E1 & E2). fold f in P3, P4, E1, E2.
  assert (Hh : 0 < hmax f) by (rewrite E1; apply Z.mul_pos_pos; assumption). assert (Hv : 0 < vmax f) by (rewrite E2; apply Z.mul_pos_pos; assumption).
  unfold blocks_high, blocks_wide, comp_height, comp_width, mcus_high, mcus_wide.
  pose proof (Z.div_mod (fr_width f) (8 * hmax f) ltac:(lia)) as D1. pose proof (Z.div_mod (fr_height f) (8 * vmax f) ltac:(lia)) as D2.
  rewrite Ww, Z.add_0_r in D1. rewrite Wh, Z.add_0_r in D2.
  set (m := fr_width f / (8 * hmax f)) in *. set (n := fr_height f / (8 * vmax f)) in *. rewrite D1, D2. rewrite !cdiv_mul by lia.
  replace (8 * vmax f * n * co_v c) with (vmax f * (8 * (n * co_v c))) by ring.
  replace (8 * hmax f * m * co_h c) with (hmax f * (8 * (m * co_h c))) by ring. rewrite !cdiv_mul by lia. split; reflexivity.
Qed.
Lemma in_upto n k : In k (upto n) -> 0 <= k < n.
Proof. unfold upto. intros H. apply in_map_iff in H as (i & <- & Hi). apply in_seq in Hi. lia. Qed.
Lemma whole_real s color w h si ci y x : let f := frame_for s color w h in whole_mcus f -> In (ci, y, x) (concat (mcus_of f si)) ->
  exists c, nth_error (fr_comps f) ci = Some c /\ 0 <= y < blocks_high f c /\ 0 <= x < blocks_wide f c.
Proof.
  intros f W H. unfold mcus_of in H. set (cl := flat_map _ _) in H.
  assert (Hcl : forall i c, In (i, c) cl -> nth_error (fr_comps f) i = Some c).
  { intros i c Hi. apply in_flat_map in Hi as (i' & _ & Hi). destruct (nth_error (fr_comps f) i') eqn:E; [|destruct Hi].
    destruct Hi as [Hi|[]]. injection Hi as <- <-. exact E. }
  clearbody cl. apply in_concat in H as (mcu & Hm & Hu).
  assert (G : In mcu (interleaved_mcus f cl) -> exists c, nth_error (fr_comps f) ci = Some c /\ 0 <= y < blocks_high f c /\ 0 <= x < blocks_wide f c).
  { intros Hi. unfold interleaved_mcus in Hi. apply in_flat_map in Hi as (my & Hmy & Hi). apply in_map_iff in Hi as (mx & <- & Hmx).
    apply in_flat_map in Hu as ([i c] & Hic & Hu). apply in_flat_map in Hu as (v & Hv & Hu). apply in_map_iff in Hu as (hh & E & Hhh).
    injection E as <- <- <-. apply in_upto in Hmy, Hmx, Hv, Hhh. pose proof (Hcl _ _ Hic) as Hc. exists c. split; [exact Hc|].
    destruct (whole_blocks s color w h c (nth_error_In _ _ Hc) W) as [B1 B2]. fold f in B1, B2. rewrite B1, B2. clear - Hmy Hmx Hv Hhh. nia. }
  destruct cl as [|[i c] [|p cl]]; [exact (G Hm)| |exact (G Hm)].
  clear G. unfold scan_mcus, single_mcus in Hm. apply in_flat_map in Hm as (y' & Hy & Hm). apply in_map_iff in Hm as (x' & <- & Hx).
  destruct Hu as [E|[]]. injection E as <- <- <-. apply in_upto in Hy, Hx. exists c. split; [apply Hcl; now left|]. split; assumption.
Qed.

(** The file depends on the coefficients of its blocks only. *)
Lemma same_file_whole s op F T im1 im2 pl1 pl2 P bytes : settings_wf s -> op_ok op F -> transform_is F T -> plat_ok P ->
  image_ok im1 pl1 -> image_ok im2 pl2 -> im_color im2 = im_color im1 -> im_width im2 = im_width im1 -> im_height im2 = im_height im1 ->
  let color := im_color im1 in let w := im_width im1 in let h := im_height im1 in let f := frame_for s color w h in
  w * h < 2 ^ (ubits P - 1) -> (s_optimize s = true -> countable s color w h) -> whole_mcus f ->
  (forall ci c y x k, nth_error (fr_comps f) ci = Some c -> 0 <= y < blocks_high f c -> 0 <= x < blocks_wide f c -> 0 <= k < 64 ->
     expected T s color pl1 w h ci c y x k = expected T s color pl2 w h ci c y x k) ->
  exec (encode_image_internal P op (enc_of s) im1) = (bytes, Ok tt) -> exec (encode_image_internal P op (enc_of s) im2) = (bytes, Ok tt).
Proof.
  intros Hs Hop HF HP Him1 Him2 Ec Ew Eh color w h f Hfit Hfew Hw He E.
  assert (R : forall ci c y x k, nth_error (fr_comps f) ci = Some c -> 0 <= y < blocks_high f c -> 0 <= x < blocks_wide f c -> 0 <= k < 64 ->
    spec_cf s T im1 pl1 ci y x k = spec_cf s T im2 pl2 ci y x k).
  { intros ci c y x k Hc Hy Hx Hk. unfold spec_cf. rewrite Ec, Ew, Eh. fold color w h f. rewrite Hc. now apply He. }
  apply (same_file s Hs op F T Hop HF im1 im2 pl1 pl2 Him1 Him2 Ec Ew Eh) with (P := P); try assumption.
  intros si ci y x k _ Hu Hk. destruct (whole_real s color w h si ci y x Hw Hu) as (c & Hc & Hy & Hx). exact (R ci c y x k Hc Hy Hx Hk).
Qed.

(** Generic in the operations. *)
Lemma blocks_with s op F T e P im pl j : settings_wf s -> op_ok op F -> transform_is F T -> close_transform T e -> (e < 4)%R -> plat_ok P -> image_ok im pl ->
  let color := im_color im in let w := im_width im in let h := im_height im in
  w * h < 2 ^ (ubits P - 1) -> (s_optimize s = true -> countable s color w h) -> tables_generated s color w h (encode_image_internal P op (enc_of s) im) -> representable T s color pl w h ->
  coarse s color -> j_frame j = frame_for s color w h -> same_tables s color j ->
  exists bytes j', exec (encode_image_internal P op (enc_of s) im) = (bytes, Ok tt) /\ decode bytes = Some j' /\
    forall ci c by_ bx k v, nth_error (fr_comps (j_frame j)) ci = Some c ->
      0 <= by_ < blocks_high (j_frame j) c -> 0 <= bx < blocks_wide (j_frame j) c -> 0 <= k < 64 ->
      rounded pl j ci c by_ bx -> coef j ci by_ bx k = Some v -> coef j' ci by_ bx k = Some v.
Proof.
  intros Hs Hop HF HT He HP Him color w h Hfit Hfew Gn R Hco Ef Hq.
  pose proof (proj2 (gives_with s op F T P im pl Hs Hop HF HP Him Hfit Hfew Gn) R) as (bytes & j' & E & D & A).
  exists bytes, j'. split; [exact E|]. split; [exact D|]. intros ci c by_ bx k v Hc Hby Hbx Hk Hr Hv.
  fold color w h in A. rewrite Ef in Hc, Hby, Hbx. 
  rewrite (da_coef _ _ _ _ _ _ _ A ci c by_ bx k Hc) by (try rewrite (da_frame _ _ _ _ _ _ _ A); assumption).
  f_equal. apply (reencode T e s color w h pl j ci c by_ bx k v HT He); try assumption; try (apply Him); [|lia|lia].
  exact (image_planes im pl s Him).
Qed.
Lemma done_generated {A} (m : prog A) bytes v : exec m = (bytes, Ok v) -> snd (exec m) <> Panicked PIndex.
Proof. intros ->. discriminate. Qed.
Lemma file_with s op F T e P im im2 pl pl2 bytes j : settings_wf s -> op_ok op F -> transform_is F T -> close_transform T e -> (e < 4)%R -> plat_ok P ->
  image_ok im pl -> image_ok im2 pl2 -> im_color im2 = im_color im -> im_width im2 = im_width im -> im_height im2 = im_height im ->
  let color := im_color im in let w := im_width im in let h := im_height im in
  w * h < 2 ^ (ubits P - 1) -> (s_optimize s = true -> countable s color w h) -> representable T s color pl w h ->
  coarse s color -> whole_mcus (frame_for s color w h) ->
  exec (encode_image_internal P op (enc_of s) im) = (bytes, Ok tt) -> decode bytes = Some j ->
  (forall ci c by_ bx, nth_error (fr_comps (j_frame j)) ci = Some c -> 0 <= by_ < blocks_high (j_frame j) c -> 0 <= bx < blocks_wide (j_frame j) c ->
     rounded pl2 j ci c by_ bx) ->
  exec (encode_image_internal P op (enc_of s) im2) = (bytes, Ok tt).
Proof.
  intros Hs Hop HF HT He HP Him Him2 Ec Ew Eh color w h Hfit Hfew R Hco Hwh E D Hr.
  pose proof (proj2 (gives_with s op F T P im pl Hs Hop HF HP Him Hfit Hfew (fun _ => or_intror (done_generated _ _ _ E))) R) as (bytes' & j' & E' & D' & A).
  rewrite E in E'. injection E' as <-. rewrite D in D'. injection D' as <-. fold color w h in A.
  apply (same_file_whole s op F T im im2 pl pl2 P bytes Hs Hop HF HP Him Him2 Ec Ew Eh Hfit Hfew Hwh); [|exact E].
  fold color w h. intros ci c y x k Hc Hy Hx Hk. symmetry.
  assert (Ef : j_frame j = frame_for s color w h) by apply A.
  apply (reencode T e s color w h pl2 j ci c y x k _ HT He); try assumption; try (apply Him).
  - pose proof (image_planes im2 pl2 s Him2) as IP. rewrite Ec, Ew, Eh in IP. exact IP.
  - exact (da_quant _ _ _ _ _ _ _ A).
  - lia.
  - lia.
  - apply Hr; rewrite Ef; assumption.
  - apply (da_coef _ _ _ _ _ _ _ A); try rewrite Ef; assumption.
Qed.

(** ** C57: a single block, in an image of any size, of any file [j] with the same frame and tables *)
Theorem C57_blocks : forall P quality calls data w h c j, let s := settings_of quality calls in
  valid_call P quality calls data w h c -> generated P quality calls data w h c -> representable int_dct s (spec_color c) (spec_plane c data w) w h ->
  coarse s (spec_color c) -> j_frame j = frame_for s (spec_color c) w h -> same_tables s (spec_color c) j ->
  exists bytes j', exec (run_encode P quality calls data w h c) = (bytes, Ok tt) /\ decode bytes = Some j' /\
    forall ci co by_ bx k v, nth_error (fr_comps (j_frame j)) ci = Some co ->
      0 <= by_ < blocks_high (j_frame j) co -> 0 <= bx < blocks_wide (j_frame j) co -> 0 <= k < 64 ->
      rounded (spec_plane c data w) j ci co by_ bx -> coef j ci by_ bx k = Some v -> coef j' ci by_ bx k = Some v.
Proof.
  intros P quality calls data w h c j s [C V Hfew] Gn. unfold tables_generated in Gn. rewrite run_encode_eq in * by assumption. fold s in Gn |- *.
  pose proof (blocks_with s default_operations fdct_pure int_dct (252 / 100)%R P _ _ j (settings_of_wf quality calls C) default_op_ok fdct_is_int_dct
    int_close ltac:(lra) (vi_platform _ _ _ _ _ V) (valid_image _ _ _ _ _ V)) as G.
  rewrite image_of_width, image_of_height, image_of_color in G. apply G; [apply (valid_fits _ _ _ _ _ V)|exact Hfew|exact Gn].
Qed.
Theorem C57_blocks_simd : forall P quality calls data w h c j, let s := settings_of quality calls in
  valid_call P quality calls data w h c -> generated_simd P quality calls data w h c -> representable avx2_dct s (spec_color c) (spec_plane c data w) w h ->
  coarse s (spec_color c) -> j_frame j = frame_for s (spec_color c) w h -> same_tables s (spec_color c) j ->
  exists bytes j', exec (run_encode_avx2 P quality calls data w h c) = (bytes, Ok tt) /\ decode bytes = Some j' /\
    forall ci co by_ bx k v, nth_error (fr_comps (j_frame j)) ci = Some co ->
      0 <= by_ < blocks_high (j_frame j) co -> 0 <= bx < blocks_wide (j_frame j) co -> 0 <= k < 64 ->
      rounded (spec_plane c data w) j ci co by_ bx -> coef j ci by_ bx k = Some v -> coef j' ci by_ bx k = Some v.
Proof.
  intros P quality calls data w h c j s [C V Hfew] Gn. unfold tables_generated in Gn. rewrite run_avx2_eq in * by assumption. fold s in Gn |- *.
  pose proof (blocks_with s avx2_operations avx2_pure avx2_dct (312 / 100)%R P _ _ j (settings_of_wf quality calls C) avx2_op_ok avx2_is_dct
    avx2_close' ltac:(lra) (vi_platform _ _ _ _ _ V) (valid_image _ _ _ _ _ V)) as G.
  rewrite image_of_width, image_of_height, image_of_color in G. apply G; [apply (valid_fits _ _ _ _ _ V)|exact Hfew|exact Gn].
Qed.

(** ** C57: the whole file *)
Definition all_rounded (pl : planes) (j : jpeg) : Prop :=
  forall ci c by_ bx, nth_error (fr_comps (j_frame j)) ci = Some c ->
    0 <= by_ < blocks_high (j_frame j) c -> 0 <= bx < blocks_wide (j_frame j) c -> rounded pl j ci c by_ bx.

Theorem C57_same_file : forall P quality calls data data2 w h c bytes j, let s := settings_of quality calls in
  valid_call P quality calls data w h c -> representable int_dct s (spec_color c) (spec_plane c data w) w h ->
  valid_call P quality calls data2 w h c -> coarse s (spec_color c) -> whole_mcus (frame_for s (spec_color c) w h) ->
  exec (run_encode P quality calls data w h c) = (bytes, Ok tt) -> decode bytes = Some j -> all_rounded (spec_plane c data2 w) j ->
  exec (run_encode P quality calls data2 w h c) = (bytes, Ok tt).
Proof.
  intros P quality calls data data2 w h c bytes j s [C V Hfew] R [_ V2 _] Hco Hwh E D Hr. rewrite run_encode_eq in E |- * by assumption. fold s in E |- *.
  pose proof (file_with s default_operations fdct_pure int_dct (252 / 100)%R P (image_of P data w h c) (image_of P data2 w h c) _ _ bytes j (settings_of_wf quality calls C) default_op_ok fdct_is_int_dct
    int_close ltac:(lra) (vi_platform _ _ _ _ _ V) (valid_image _ _ _ _ _ V) (valid_image _ _ _ _ _ V2)) as G.
  rewrite !image_of_width, !image_of_height, !image_of_color in G.
  exact (G eq_refl eq_refl eq_refl (proj1 (valid_fits _ _ _ _ _ V)) Hfew R Hco Hwh E D Hr).
Qed.
Theorem C57_same_file_simd : forall P quality calls data data2 w h c bytes j, let s := settings_of quality calls in
  valid_call P quality calls data w h c -> representable avx2_dct s (spec_color c) (spec_plane c data w) w h ->
  valid_call P quality calls data2 w h c -> coarse s (spec_color c) -> whole_mcus (frame_for s (spec_color c) w h) ->
  exec (run_encode_avx2 P quality calls data w h c) = (bytes, Ok tt) -> decode bytes = Some j -> all_rounded (spec_plane c data2 w) j ->
  exec (run_encode_avx2 P quality calls data2 w h c) = (bytes, Ok tt).
Proof.
  intros P quality calls data data2 w h c bytes j s [C V Hfew] R [_ V2 _] Hco Hwh E D Hr. rewrite run_avx2_eq in E |- * by assumption. fold s in E |- *.
  pose proof (file_with s avx2_operations avx2_pure avx2_dct (312 / 100)%R P (image_of P data w h c) (image_of P data2 w h c) _ _ bytes j (settings_of_wf quality calls C) avx2_op_ok avx2_is_dct
    avx2_close' ltac:(lra) (vi_platform _ _ _ _ _ V) (valid_image _ _ _ _ _ V) (valid_image _ _ _ _ _ V2)) as G.
  rewrite !image_of_width, !image_of_height, !image_of_color in G.
  exact (G eq_refl eq_refl eq_refl (proj1 (valid_fits _ _ _ _ _ V)) Hfew R Hco Hwh E D Hr).
Qed.
(** Any number of generations: each image is what a decoder shows for the file of the one before. *)
Theorem C57_generations : forall P quality calls w h c (image : nat -> list Z), let s := settings_of quality calls in
  (forall n, valid_call P quality calls (image n) w h c) -> generated P quality calls (image O) w h c ->
  representable int_dct s (spec_color c) (spec_plane c (image O) w) w h -> coarse s (spec_color c) -> whole_mcus (frame_for s (spec_color c) w h) ->
  (forall n bytes j, exec (run_encode P quality calls (image n) w h c) = (bytes, Ok tt) -> decode bytes = Some j ->
     all_rounded (spec_plane c (image (S n)) w) j) ->
  exists bytes, forall n, exec (run_encode P quality calls (image n) w h c) = (bytes, Ok tt).
Proof.
  intros P quality calls w h c image s V Gn R Hco Hwh Hn. pose proof (V O) as [C V0 Hfew].
  destruct (proj2 (C46_decodes_iff P quality calls (image O) w h c C V0 Hfew Gn) R) as (bytes & j & E & D & _).
  exists bytes. induction n as [|n IH]; [exact E|].
  apply (C57_same_file P quality calls (image O) (image (S n)) w h c bytes j (V O) R (V (S n)) Hco Hwh E D). exact (Hn n bytes j IH D).
Qed.

(** Greyscale, in terms of bytes: the second image has, for every pixel, the byte nearest to the exactly
    reconstructed sample, and no sample is out of the range of a byte by more than 1/2. *)
Theorem C57_grey : forall P quality calls data data2 w h bytes j, let s := settings_of quality calls in
  valid_call P quality calls data w h Luma -> representable int_dct s JLuma (spec_plane Luma data w) w h -> valid_call P quality calls data2 w h Luma ->
  coarse s JLuma -> w mod 8 = 0 -> h mod 8 = 0 ->
  exec (run_encode P quality calls data w h Luma) = (bytes, Ok tt) -> decode bytes = Some j ->
  (forall by_ bx y x, 0 <= by_ < h / 8 -> 0 <= bx < w / 8 -> (y < 8)%nat -> (x < 8)%nat ->
     let r := reconstructed j 0 by_ bx y x in
     (- / 2 <= r <= 255 + / 2)%R /\ SPixels.nearest_byte r (nth (Z.to_nat ((8 * by_ + Z.of_nat y) * w + 8 * bx + Z.of_nat x)) data2 0)) ->
  exec (run_encode P quality calls data2 w h Luma) = (bytes, Ok tt).
Proof.
  intros P quality calls data data2 w h bytes j s VC R VC2 Hco Hw8 Hh8 E D Hn. pose proof VC as [C V Hfew].
  destruct (proj2 (C46_decodes_iff P quality calls data w h Luma C V Hfew (fun _ => or_intror (done_generated _ _ _ E))) R) as (bytes' & j' & E' & D' & A).
  rewrite E in E'. injection E' as <-. rewrite D in D'. injection D' as <-. fold s in A. pose proof (da_frame _ _ _ _ _ _ _ A) as Ef.
  set (f := frame_for s (spec_color Luma) w h) in *.
  set (g := {| co_id := 0; co_h := 1; co_v := 1; co_tq := 0 |}).
  assert (Ec : fr_comps f = [g]).
  { unfold f. cbn [frame_for fr_comps spec_color]. unfold comps_of. destruct (factors (s_sampling s)). reflexivity. }
  assert (Hm : hmax f = 1 /\ vmax f = 1) by (unfold hmax, vmax; rewrite Ec; split; reflexivity). destruct Hm as [Hm Vm].
  assert (Hwh : whole_mcus f) by (split; rewrite ?Hm, ?Vm; assumption).
  apply (C57_same_file P quality calls data data2 w h Luma bytes j VC R VC2 Hco Hwh E D).
  intros ci c by_ bx Hc Hby Hbx. rewrite Ef in Hc, Hby, Hbx.
  assert (Hin : In c (fr_comps f)) by exact (nth_error_In _ _ Hc).
  destruct (whole_blocks s (spec_color Luma) w h c Hin Hwh) as [B1 B2]. fold f in B1, B2. rewrite B1 in Hby. rewrite B2 in Hbx.
  rewrite Ec in Hc. destruct ci as [|[|ci]]; try discriminate Hc. injection Hc as <-. cbn [co_h co_v g] in Hby, Hbx.
  unfold mcus_high in Hby. unfold mcus_wide in Hbx. rewrite Hm in Hbx. rewrite Vm in Hby.
  change (fr_height f) with h in Hby. change (fr_width f) with w in Hbx. change (8 * 1) with 8 in Hby, Hbx.
  pose proof (Z.div_mod w 8 ltac:(lia)) as D1. pose proof (Z.div_mod h 8 ltac:(lia)) as D2. rewrite Hw8, Z.add_0_r in D1. rewrite Hh8, Z.add_0_r in D2.
  rewrite D2, cdiv_mul, Z.mul_1_r in Hby by lia. rewrite D1, cdiv_mul, Z.mul_1_r in Hbx by lia.
  intros y x Hy Hx. destruct (Hn by_ bx y x ltac:(lia) ltac:(lia) Hy Hx) as [[L U] [Nb Na]].
  assert (Es : sample_at (spec_plane Luma data2 w) (j_frame j) 0 g by_ bx y x
    = nth (Z.to_nat ((8 * by_ + Z.of_nat y) * w + 8 * bx + Z.of_nat x)) data2 0).
  { unfold sample_at. rewrite Ef, Hm, Vm. change (fr_height f) with h. change (fr_width f) with w. cbn [co_h co_v g]. change (1 / 1) with 1. rewrite !Z.mul_1_r.
    rewrite !Z.min_r by lia. unfold spec_plane, pixel_byte. f_equal. cbn [spec_bpp]. lia. }
  rewrite Es. set (b := nth _ data2 0) in *. clearbody b. set (r := reconstructed j 0 by_ bx y x) in *. clearbody r.
  clear - L U Na. destruct (Rle_dec 0 r) as [H0|H0]; [destruct (Rle_dec r 255) as [H1|H1]|].
  - rewrite Rmin_right in Na by exact H1. rewrite Rmax_right in Na by exact H0. exact Na.
  - rewrite Rmin_left in Na by lra. rewrite Rmax_right in Na by lra. apply unabs in Na.
    assert (B : b = 255).
    { assert (X1 : (IZR b < IZR 256)%R) by lra. assert (X2 : (IZR 254 < IZR b)%R) by lra. apply lt_IZR in X1. apply lt_IZR in X2. lia. }
    subst b. apply Rabs_le. lra.
  - rewrite Rmin_right in Na by lra. rewrite Rmax_left in Na by lra. apply unabs in Na.
    assert (B : b = 0).
    { assert (X1 : (IZR b < IZR 1)%R) by lra. assert (X2 : (IZR (-1) < IZR b)%R) by lra. apply lt_IZR in X1. apply lt_IZR in X2. lia. }
    subst b. apply Rabs_le. lra.
Qed.

(** The default tables up to quality 47: *)
Theorem C57_default_tables : forall s color, s_luma s = QDefault -> s_chroma s = QDefault -> s_quality s <= 47 -> coarse s color.
Proof.
  intros s color E0 E1 Hq c i _ Hi. unfold quantizer. rewrite E0, E1.
  pose proof (C13_monotone QDefault true i (s_quality s) 47 I Hq) as M0.
  pose proof (C13_monotone QDefault false i (s_quality s) 47 I Hq) as M1.
  pose proof (below64 (fun i => 11 <=? quantizer_of QDefault 47 true i) ltac:(vm_compute; reflexivity) i Hi) as B0.
  pose proof (below64 (fun i => 11 <=? quantizer_of QDefault 47 false i) ltac:(vm_compute; reflexivity) i Hi) as B1.
  cbv beta in *. destruct (co_tq c =? 0); lia.
Qed.

(** ** A concrete case: a flat 8 x 8 image, quality 40.  The file of the value 160 decodes to 160.5 everywhere; the two
    ways of rounding this, 160 and 161, both give the same file again. *)
Definition flat (n : Z) : list Z := repeat n 64.
Lemma flat_valid n : 0 <= n <= 255 -> valid_call debug64 40 [] (flat n) 8 8 Luma.
Proof.
  intros Hn. constructor; [constructor| |discriminate].
  constructor; try lia; [right; reflexivity| |vm_compute; discriminate|vm_compute; reflexivity].
  apply Forall_forall. intros x Hx. apply repeat_spec in Hx. subst x. unfold is_u8. lia.
Qed.
Lemma flat_representable n : representable int_dct (settings_of 40 []) JLuma (spec_plane Luma (flat n) 8) 8 8.
Proof.
  split; [split|split].
  - intros c i Hc Hi. destruct Hc as [<-|[]]. cbn [co_tq].
    pose proof (below64 (fun i => quantizer (settings_of 40 []) 0 i <=? 255) ltac:(vm_compute; reflexivity) i Hi). cbv beta in *. lia.
  - intros i Hi.
    pose proof (below64 (fun i => negb (quantizer (settings_of 40 []) 1 i mod 256 =? 0)) ltac:(vm_compute; reflexivity) i Hi). cbv beta in *. lia.
  - exact I.
  - discriminate.
Qed.
Lemma flat_reconstructed j y x : (y < 8)%nat -> (x < 8)%nat ->
  decoded_with int_dct (settings_of 40 []) JLuma 8 8 (spec_plane Luma (flat 160) 8) j -> reconstructed j 0 0 0 y x = (160 + / 2)%R.
Proof.
  intros Hy Hx A. set (g := {| co_id := 0; co_h := 1; co_v := 1; co_tq := 0 |}).
  assert (Hc : nth_error (comps_of (s_sampling (settings_of 40 [])) JLuma) 0 = Some g) by reflexivity.
  assert (B : 0 <= 0 < blocks_high (j_frame j) g /\ 0 <= 0 < blocks_wide (j_frame j) g).
  { rewrite (da_frame _ _ _ _ _ _ _ A). split; vm_compute; split; try discriminate; reflexivity. }
  assert (Dq : forall v u, (v < 8)%nat -> (u < 8)%nat -> dequantized j 0 0 0 v u = if ((v =? 0) && (u =? 0))%nat then 260%R else 0%R).
  { intros v u Hv Hu. unfold dequantized. destruct (zigzag_index_ok v u Hv Hu) as (Z1 & _).
    rewrite (da_coef _ _ _ _ _ _ _ A 0%nat g 0 0 _ Hc (proj1 B) (proj2 B)) by lia. rewrite (da_quant _ _ _ _ _ _ _ A 0%nat g Hc).
    match goal with |- IZR ?z = _ => enough (E : z = if ((v =? 0) && (u =? 0))%nat then 260 else 0) end.
    { rewrite E. destruct ((v =? 0) && (u =? 0))%nat; reflexivity. }
    clear - Hv Hu. do 8 (destruct v as [|v]; [do 8 (destruct u as [|u]; [vm_compute; reflexivity|]); lia|]). lia. }
  unfold reconstructed. rewrite (idct_ext _ (fun v u => if ((v =? 0) && (u =? 0))%nat then 260%R else 0%R) y x Dq).
  unfold exact_idct, rsum8. cbn [Nat.eqb andb].
  assert (S2 : (dct_c 0 * dct_c 0 = / 2)%R).
  { unfold dct_c. rewrite <- Rinv_mult. rewrite sqrt2_sq. reflexivity. }
  assert (C0 : forall z, dct_cos z 0 = 1%R).
  { intros z. unfold dct_cos. rewrite Rmult_0_r, Rmult_0_l. unfold Rdiv. rewrite Rmult_0_l. apply cos_0. }
  rewrite !C0. 
  replace (dct_c 0 * dct_c 0 * 260 * 1 * 1)%R with (130%R) by (rewrite S2; lra).
  lra.
Qed.
Example C57_case : forall n, n = 160 \/ n = 161 ->
  coarse (settings_of 40 []) JLuma /\ exec (run_encode debug64 40 [] (flat n) 8 8 Luma) = exec (run_encode debug64 40 [] (flat 160) 8 8 Luma).
Proof.
  intros n Hn. assert (Co : coarse (settings_of 40 []) JLuma) by (apply C57_default_tables; [reflexivity|reflexivity|vm_compute; discriminate]).
  split; [exact Co|]. pose proof (flat_valid 160 ltac:(lia)) as V1. pose proof V1 as [C V Hf].
  destruct (proj2 (C46_decodes_iff debug64 40 [] (flat 160) 8 8 Luma C V Hf ltac:(discriminate)) (flat_representable 160)) as (bytes & j & E & D & A).
  rewrite E. apply (C57_grey debug64 40 [] (flat 160) (flat n) 8 8 bytes j V1 (flat_representable 160) (flat_valid n ltac:(lia)) Co eq_refl eq_refl E D).
  intros by_ bx y x Hby Hbx Hy Hx. change (8 / 8) with 1 in Hby, Hbx. assert (by_ = 0) by lia. assert (bx = 0) by lia. subst by_ bx.
  cbv zeta. rewrite (flat_reconstructed j y x Hy Hx A). split; [lra|].
  assert (En : nth (Z.to_nat ((8 * 0 + Z.of_nat y) * 8 + 8 * 0 + Z.of_nat x)) (flat n) 0 = n).
  { unfold flat. apply (repeat_spec 64 n). apply nth_In. rewrite repeat_length. lia. }
  rewrite En. split; [lia|]. rewrite Rmin_right by lra. rewrite Rmax_right by lra. apply Rabs_le. destruct Hn as [-> | ->]; lra.
Qed.
