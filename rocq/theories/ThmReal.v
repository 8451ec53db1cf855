(** Theorems about real numbers: C17 (the forward transform is the DCT) and C41 (what an exact decoder
    reconstructs).  They rest on the axioms of the standard library's real numbers. *)
From Coq Require Import Reals Lra.
From Verif Require Import MApi MFdct MAvx2 SApi SHuff SDct SReal SAvx2 PReal PIdct PRound PAvx2 PAvxDct PFdct T81 PPlat ThmRound ThmHuff ThmQuant ThmAvx2 SDecide ThmDecide.
From Coq Require Import ZArith List Bool Lia ZifyBool ZifyNat.
Import ListNotations.
Open Scope R_scope.

Definition close_transform (T : transform) (e : R) : Prop :=
  forall s, (forall y x, (y < 8)%nat -> (x < 8)%nat -> (-128 <= s y x <= 127)%Z) ->
  forall v u, (v < 8)%nat -> (u < 8)%nat ->
    Rabs (IZR (T s v u) - 8 * exact_dct (fun y x => IZR (s y x)) v u) <= e /\ (-8193 <= T s v u <= 8193)%Z.
Lemma int_close : close_transform int_dct (252 / 100).
Proof.
  intros s Hs v u Hv Hu. split.
  - eapply Rle_trans; [apply (dct_close s Hs v u Hv Hu)|]. now apply total_error_bound.
  - destruct (C16_no_overflow debug64 s Hs) as (out & _ & _ & B). pose proof (proj2 (B v u Hv Hu)) as R.
    destruct (8 * v + u =? 0)%nat; lia.
Qed.
Lemma avx2_close s : (forall y x, (y < 8)%nat -> (x < 8)%nat -> (-128 <= s y x <= 127)%Z) ->
  forall v u, (v < 8)%nat -> (u < 8)%nat ->
    Rabs (IZR (avx2_dct s v u) - 8 * exact_dct (fun y x => IZR (s y x)) v u) <= 312 / 100.
Proof.
  intros Hs v u Hv Hu. pose proof (dct_close s Hs v u Hv Hu) as D. destruct (dct_difference s v u Hv Hu) as [D1 D2].
  destruct (unrounded v u) eqn:E.
  - assert (V : (v = 0 \/ v = 4)%nat).
    { unfold unrounded in E. apply andb_true_iff in E as [E _]. apply orb_true_iff in E as [E|E]; apply Nat.eqb_eq in E; auto. }
    pose proof (total_error_rows v u V Hu) as T. destruct D1 as [L U]. apply IZR_le in L. apply IZR_le in U. rewrite minus_IZR in L, U.
    pose proof (tri3 (IZR (avx2_dct s v u)) (IZR (int_dct s v u)) (8 * exact_dct (fun y x => IZR (s y x)) v u)) as R3.
    assert (A : Rabs (IZR (avx2_dct s v u) - IZR (int_dct s v u)) <= 1) by (apply Rabs_le; lra). lra.
  - rewrite (D2 eq_refl). pose proof (total_error_bound v u Hv Hu). lra.
Qed.
Lemma avx2_close' : close_transform avx2_dct (312 / 100).
Proof.
  intros s Hs v u Hv Hu. split; [now apply avx2_close|].
  pose proof (proj2 (int_close s Hs v u Hv Hu)) as B. destruct (C16_no_overflow debug64 s Hs) as (out & _ & _ & R). specialize (R v u Hv Hu).
  destruct (dct_difference s v u Hv Hu) as [D1 _]. destruct (8 * v + u =? 0)%nat; lia.
Qed.

(** ** C17 *)
(** For every block of level-shifted samples: the transform succeeds, and each of the 64 results is within 2.52
    of 8 times the exact DCT of T.81 A.3.3; those with both frequencies in {0, 4} are exact up to rounding. *)
Theorem C17_dct : forall P b,
  length b = 64%nat -> Forall (fun v => (-128 <= v <= 127)%Z) b ->
  exists out, fdct P b = Ret out /\ length out = 64%nat /\
    forall v u, (v < 8)%nat -> (u < 8)%nat ->
      let err := Rabs (IZR (nth (8 * v + u) out 0%Z) - 8 * exact_dct (fun y x => IZR (nth (8 * y + x) b 0%Z)) v u) in
      err <= 252 / 100 /\ ((v = 0 \/ v = 4)%nat -> (u = 0 \/ u = 4)%nat -> err <= / 2).
Proof.
  intros P b Hl Hb. set (s := fun y x : nat => nth (8 * y + x) b 0%Z).
  assert (Hs : forall y x, (y < 8)%nat -> (x < 8)%nat -> (-128 <= s y x <= 127)%Z).
  { intros y x Hy Hx. rewrite Forall_forall in Hb. apply Hb. apply nth_In. lia. }
  assert (Eb : b = block_list s).
  { unfold s. clear - Hl. do 64 (destruct b as [|? b]; [discriminate Hl|]). destruct b; [reflexivity|discriminate Hl]. }
  destruct (C16_no_overflow P s Hs) as (out & E & Hlo & B). rewrite <- Eb in E. exists out. split; [exact E|]. split; [exact Hlo|].
  intros v u Hv Hu err. unfold err. rewrite (proj1 (B v u Hv Hu)).
  pose proof (dct_close s Hs v u Hv Hu) as D. change (fun y x : nat => IZR (s y x)) with (fun y x : nat => IZR (nth (8 * y + x) b 0%Z)) in D. split.
  - eapply Rle_trans; [exact D|]. now apply total_error_bound.
  - intros V U. rewrite <- (total_error_flat v u V U). exact D.
Qed.

(** The AVX2 transform: within 3.12. *)
Theorem C17_dct_avx2 : forall b,
  length b = 64%nat -> Forall (fun v => (-128 <= v <= 127)%Z) b ->
  forall v u, (v < 8)%nat -> (u < 8)%nat ->
    Rabs (IZR (nth (8 * v + u) (fdct_avx2 b) 0%Z) - 8 * exact_dct (fun y x => IZR (nth (8 * y + x) b 0%Z)) v u) <= 312 / 100.
Proof.
  intros b Hl Hb v u Hv Hu. set (s := fun y x : nat => nth (8 * y + x) b 0%Z).
  assert (Hs : forall y x, (y < 8)%nat -> (x < 8)%nat -> (-128 <= s y x <= 127)%Z).
  { intros y x Hy Hx. rewrite Forall_forall in Hb. apply Hb. apply nth_In. lia. }
  assert (Eb : b = block_of s).
  { unfold s. clear - Hl. do 64 (destruct b as [|? b]; [discriminate Hl|]). destruct b; [reflexivity|discriminate Hl]. }
  assert (Hok : samples_ok b) by (split; assumption).
  rewrite fdct_avx2_ok by assumption. pose proof (avx2_is_dct s v u Hv Hu) as E2. rewrite <- Eb in E2. unfold zn in E2. rewrite Nat2Z.id in E2. rewrite E2.
  exact (avx2_close s Hs v u Hv Hu).
Qed.

(** A case: the block with one bright sample has DC coefficient 8 * 255/8 - 1024 = -769 ... *)
Example C17_case : let b := (127 :: repeat (-128) 63)%Z in
  length b = 64%nat /\ Forall (fun v => (-128 <= v <= 127)%Z) b /\
  exists out, fdct debug64 b = Ret out /\ nth 0 out 0%Z = (-7937)%Z /\ nth 9 out 0%Z = 491%Z.
Proof.
  split; [reflexivity|]. split; [repeat constructor; lia|]. eexists. split; [vm_compute; reflexivity|]. split; reflexivity.
Qed.

(** ** C41: what an exact decoder reconstructs *)
Lemma quantize_error q v x e : (1 <= q <= 2048)%Z -> (-8193 <= v <= 8193)%Z -> Rabs (IZR v - 8 * x) <= e ->
  Rabs (IZR (int_quantize (8 * q) v * q) - x) <= quantizer_error e q.
Proof.
  intros Hq Hv He. set (Q := int_quantize (8 * q) v).
  assert (A : Rabs (8 * IZR (Q * q) - IZR v) <= 8 * (quantizer_error e q - e / 8)).
  { unfold quantizer_error. destruct (Z.eqb_spec q 1) as [->|Hn].
    - assert (B : (-4 <= v - Q * 8 <= 4)%Z).
      { unfold Q. change (8 * 1)%Z with (2 ^ 3)%Z. rewrite C15_exact_powers by lia. unfold nearest. change (2 ^ 3)%Z with 8%Z.
        destruct (Z.lt_trichotomy v 0) as [L|[->|L]]; [rewrite Z.sgn_neg, Z.abs_neq by lia|cbn; lia|rewrite Z.sgn_pos, Z.abs_eq by lia];
          match goal with |- context [(?a / ?b)%Z] => pose proof (Z.div_mod a b ltac:(lia)); pose proof (Z.mod_pos_bound a b ltac:(lia)); set (t := (a / b)%Z) in *; set (m := (a mod b)%Z) in * end; clearbody t m; lia. }
      destruct B as [B1 B2]. apply IZR_le in B1. apply IZR_le in B2. rewrite minus_IZR, mult_IZR in B1, B2. rewrite mult_IZR. apply Rabs_le. lra.
    - pose proof (C15_error (8 * q) v ltac:(lia)) as E. fold Q in E.
      assert (H4 : (8 * q / 2 = 4 * q)%Z) by (replace (8 * q)%Z with (4 * q * 2)%Z by lia; apply Z.div_mul; lia). rewrite H4 in E.
      assert (E2 : (65536 * Z.abs (Q * (8 * q) - v) <= 32768 * (8 * q) + 65536 + (8193 + 4 * q + 1) * (8 * q))%Z).
      { replace (Z.abs (Q * (8 * q) - v)) with (Z.abs (v - Q * (8 * q))) by lia. nia. }
      apply IZR_le in E2. rewrite mult_IZR, abs_IZR in E2. rewrite !plus_IZR, !mult_IZR, !plus_IZR, minus_IZR, !mult_IZR in E2.
      rewrite mult_IZR. replace (8 * (IZR Q * IZR q) - IZR v) with (IZR Q * (8 * IZR q) - IZR v) by ring.
      set (t := Rabs _) in *. clearbody t. set (r := IZR q) in *. clearbody r. nra. }
  assert (B : Rabs (8 * IZR (Q * q) - 8 * x) <= 8 * quantizer_error e q).
  { pose proof (tri3 (8 * IZR (Q * q)) (IZR v) (8 * x)). lra. }
  rewrite <- Rmult_minus_distr_l, Rabs_mult, (Rabs_pos_eq 8) in B by lra. lra.
Qed.

Lemma zigzag_index_ok v u : (v < 8)%nat -> (u < 8)%nat ->
  (zigzag_index v u < 64)%nat /\ zigzag_pos (Z.of_nat (zigzag_index v u)) = (v, u) /\ nth (zigzag_index v u) zigzag (0, 0)%nat = (v, u).
Proof.
  intros Hv Hu. do 8 (destruct v as [|v]; [do 8 (destruct u as [|u]; [vm_compute; repeat constructor|]); lia|]). lia.
Qed.

Lemma energy_le e m : (forall v u, (v < 8)%nat -> (u < 8)%nat -> Rabs (e v u) <= m v u) -> energy e <= energy m.
Proof.
  intros H. apply rsum8_le. intros v Hv. apply rsum8_le. intros u Hu. specialize (H v u Hv Hu).
  pose proof (Rabs_pos (e v u)). replace (e v u * e v u) with (Rabs (e v u) * Rabs (e v u)) by (rewrite <- Rabs_mult; apply Rabs_pos_eq; nra). nra.
Qed.

(** Generic in the transform: the reconstruction of every block of every component. *)
Lemma reconstruct T e s color w h pl j :
  close_transform T e -> (1 <= w)%Z -> (1 <= h)%Z -> 
  (forall i y x, (i < length (comps_of (s_sampling s) color))%nat -> (0 <= y < h)%Z -> (0 <= x < w)%Z -> (0 <= pl i y x <= 255)%Z) ->
  decoded_with T s color w h pl j -> faithful e s pl j.
Proof.
  intros HT Hw Hh Hpl D ci c by_ bx Hc Hby Hbx.
  assert (Hc' : nth_error (comps_of (s_sampling s) color) ci = Some c) by (rewrite (da_frame _ _ _ _ _ _ _ D) in Hc; exact Hc).
  assert (Hci : (ci < length (comps_of (s_sampling s) color))%nat) by (apply nth_error_Some; congruence).
  set (f := frame_for s color w h). assert (Ef : j_frame j = f) by apply D.
  set (bs := block_sample pl w h (hmax f / co_h c) (vmax f / co_v c) ci by_ bx).
  assert (Hpos : (0 <= hmax f / co_h c /\ 0 <= vmax f / co_v c)%Z).
  { assert (G : (1 <= co_h c /\ 1 <= co_v c)%Z).
    { clear - Hc'. apply nth_error_In in Hc'. unfold comps_of in Hc'.
      destruct (s_sampling s), color; cbn in Hc'; repeat destruct Hc' as [<-|Hc']; cbn; try lia; contradiction. }
    assert (M : forall l, (1 <= fold_right (fun c m => Z.max (co_h c) m) 1 l /\ 1 <= fold_right (fun c m => Z.max (co_v c) m) 1 l)%Z)
      by (induction l; cbn [fold_right]; lia).
    destruct (M (fr_comps f)) as [M1 M2]. split; apply Z.div_pos; unfold hmax, vmax; lia. }
  assert (Hbs : forall y x, (y < 8)%nat -> (x < 8)%nat -> (-128 <= bs y x <= 127)%Z).
  { intros y x Hy Hx. unfold bs, block_sample.
    assert (N1 : (0 <= (8 * by_ + Z.of_nat y) * (vmax f / co_v c))%Z) by (apply Z.mul_nonneg_nonneg; lia).
    assert (N2 : (0 <= (8 * bx + Z.of_nat x) * (hmax f / co_h c))%Z) by (apply Z.mul_nonneg_nonneg; lia).
    pose proof (Hpl ci (Z.min (h - 1) ((8 * by_ + Z.of_nat y) * (vmax f / co_v c))) (Z.min (w - 1) ((8 * bx + Z.of_nat x) * (hmax f / co_h c))) Hci ltac:(lia) ltac:(lia)). lia. }
  assert (E1 : forall y x, (y < 8)%nat -> (x < 8)%nat ->
    reconstructed j ci by_ bx y x - IZR (sample_at pl (j_frame j) ci c by_ bx y x)
    = exact_idct (fun v u => dequantized j ci by_ bx v u - exact_dct (fun y x => IZR (bs y x)) v u) y x).
  { intros y x Hy Hx. rewrite <- idct_minus, idct_dct by assumption. unfold reconstructed. rewrite Ef.
    change (IZR (bs y x)) with (IZR (sample_at pl f ci c by_ bx y x - 128)). rewrite minus_IZR. ring. }
  unfold mean_square. apply Rmult_le_compat_r; [lra|].
  change (energy (fun y x => reconstructed j ci by_ bx y x - IZR (sample_at pl (j_frame j) ci c by_ bx y x))
    <= energy (fun v u => quantizer_error e (quantizer s (co_tq c) (Z.of_nat (8 * v + u))))).
  replace (energy (fun y x => reconstructed j ci by_ bx y x - IZR (sample_at pl (j_frame j) ci c by_ bx y x)))
    with (energy (exact_idct (fun v u => dequantized j ci by_ bx v u - exact_dct (fun y x => IZR (bs y x)) v u))).
  2:{ unfold energy. apply rsum8_ext. intros y Hy. apply rsum8_ext. intros x Hx. rewrite E1 by assumption. reflexivity. }
  rewrite idct_energy. apply energy_le. intros v u Hv Hu.
  destruct (zigzag_index_ok v u Hv Hu) as (Z1 & Z2 & Z3).
  unfold dequantized. rewrite (da_coef _ _ _ _ _ _ _ D ci c by_ bx _ Hc' Hby Hbx) by lia. rewrite (da_quant _ _ _ _ _ _ _ D ci c Hc').
  unfold expected. rewrite Z2. cbv beta iota zeta. fold f. fold bs.
  assert (Eq : nth (zigzag_index v u) (map (fun '(v, u) => quantizer s (co_tq c) (Z.of_nat (8 * v + u))) zigzag) 0%Z = quantizer s (co_tq c) (Z.of_nat (8 * v + u))).
  { set (g := fun '(v, u) => quantizer s (co_tq c) (Z.of_nat (8 * v + u))).
    rewrite (nth_indep _ 0%Z (g (0, 0)%nat)).
    - rewrite map_nth, Z3. reflexivity.
    - rewrite map_length. change (length zigzag) with 64%nat. exact Z1. }
  rewrite Eq. destruct (HT bs Hbs v u Hv Hu) as [C1 C2].
  apply quantize_error; [apply quantizer_range|exact C2|exact C1].
Qed.

Lemma image_planes im pl s : image_ok im pl -> forall i y x, (i < length (comps_of (s_sampling s) (im_color im)))%nat ->
  (0 <= y < im_height im)%Z -> (0 <= x < im_width im)%Z -> (0 <= pl i y x <= 255)%Z.
Proof.
  intros H i y x Hi. apply (io_range _ _ H).
  assert (E : Z.of_nat (length (comps_of (s_sampling s) (im_color im))) = num_components (im_color im)).
  { unfold comps_of. destruct (factors (s_sampling s)). destruct (im_color im); reflexivity. }
  lia.
Qed.
Lemma input_planes P data w h c s : valid_input P data w h c -> forall i y x, (i < length (comps_of (s_sampling s) (spec_color c)))%nat ->
  (0 <= y < h)%Z -> (0 <= x < w)%Z -> (0 <= spec_plane c data w i y x <= 255)%Z.
Proof.
  intros V. pose proof (image_planes _ _ s (valid_image _ _ _ _ _ V)) as H.
  rewrite image_of_color, image_of_height, image_of_width in H. exact H.
Qed.

(** Every valid call of [encode], scalar and SIMD build, standard and optimized tables: *)
Theorem C41_encode : forall P quality calls data w h c,
  std_config quality calls -> valid_input P data w h c ->
  exists bytes j, exec (run_encode P quality calls data w h c) = (bytes, Ok tt) /\ decode bytes = Some j /\
    faithful (252 / 100) (settings_of quality calls) (spec_plane c data w) j.
Proof.
  intros P quality calls data w h c C V. destruct (C01_round_trip P quality calls data w h c C V) as (b & j & E & _ & D & A).
  exists b, j. split; [exact E|]. split; [exact D|]. 
  apply (reconstruct int_dct _ _ (spec_color c) w h); [exact int_close|apply V|apply V|exact (input_planes _ _ _ _ _ _ V)|exact A].
Qed.
Theorem C41_encode_optimized : forall P quality calls data w h c,
  opt_config quality calls -> valid_input P data w h c ->
  few_blocks (settings_of quality calls) (spec_color c) w h ->
  no_restarts (settings_of quality calls) (spec_color c) w h ->
  exists bytes j, exec (run_encode P quality calls data w h c) = (bytes, Ok tt) /\ decode bytes = Some j /\
    faithful (252 / 100) (settings_of quality calls) (spec_plane c data w) j.
Proof.
  intros P quality calls data w h c C V F N. destruct (C02_round_trip P quality calls data w h c C V F N) as (b & j & E & _ & D & A).
  exists b, j. split; [exact E|]. split; [exact D|]. 
  apply (reconstruct int_dct _ _ (spec_color c) w h); [exact int_close|apply V|apply V|exact (input_planes _ _ _ _ _ _ V)|exact A].
Qed.
Theorem C41_encode_simd : forall P quality calls data w h c,
  std_config quality calls -> valid_input P data w h c ->
  exists bytes j, exec (run_encode_avx2 P quality calls data w h c) = (bytes, Ok tt) /\ decode bytes = Some j /\
    faithful (312 / 100) (settings_of quality calls) (spec_plane c data w) j.
Proof.
  intros P quality calls data w h c C V. destruct (C33_simd_round_trip P quality calls data w h c C V) as (b & j & E & _ & D & A).
  exists b, j. split; [exact E|]. split; [exact D|]. 
  apply (reconstruct avx2_dct _ _ (spec_color c) w h); [exact avx2_close'|apply V|apply V|exact (input_planes _ _ _ _ _ _ V)|exact A].
Qed.
(** and of [encode_image]. *)
Theorem C41_encode_image : forall P quality calls im pl,
  std_config quality calls -> valid_buffer P im pl ->
  exists bytes j, exec (run_encode_image P quality calls im) = (bytes, Ok tt) /\ decode bytes = Some j /\
    faithful (252 / 100) (settings_of quality calls) pl j.
Proof.
  intros P quality calls im pl C V. destruct (C01_round_trip_image P quality calls im pl C V) as (b & j & E & _ & D & A).
  exists b, j. split; [exact E|]. split; [exact D|]. pose proof (vb_image _ _ _ V) as I.
  apply (reconstruct int_dct _ _ (im_color im) (im_width im) (im_height im)); [exact int_close|apply I|apply I|exact (image_planes _ _ _ I)|exact A].
Qed.

(** Every call of [encode] and [encode_image] whose file decodes to the image (C46): *)
Theorem C41_every_representable : forall P quality calls data w h c, let s := settings_of quality calls in
  Forall call_wf calls -> valid_input P data w h c -> (s_optimize s = true -> countable s (spec_color c) w h) ->
  tables_generated s (spec_color c) w h (run_encode P quality calls data w h c) ->
  representable int_dct s (spec_color c) (spec_plane c data w) w h ->
  exists bytes j, exec (run_encode P quality calls data w h c) = (bytes, Ok tt) /\ decode bytes = Some j /\
    faithful (252 / 100) s (spec_plane c data w) j.
Proof.
  intros P quality calls data w h c s C V F Gn R. apply (C46_decodes_iff P quality calls data w h c C V F Gn) in R.
  destruct R as (b & j & E & D & A). exists b, j. split; [exact E|]. split; [exact D|].
  apply (reconstruct int_dct _ _ (spec_color c) w h); [exact int_close|apply V|apply V|exact (input_planes _ _ _ _ _ _ V)|exact A].
Qed.
Theorem C41_every_representable_simd : forall P quality calls data w h c, let s := settings_of quality calls in
  Forall call_wf calls -> valid_input P data w h c -> (s_optimize s = true -> countable s (spec_color c) w h) ->
  tables_generated s (spec_color c) w h (run_encode_avx2 P quality calls data w h c) ->
  representable avx2_dct s (spec_color c) (spec_plane c data w) w h ->
  exists bytes j, exec (run_encode_avx2 P quality calls data w h c) = (bytes, Ok tt) /\ decode bytes = Some j /\
    faithful (312 / 100) s (spec_plane c data w) j.
Proof.
  intros P quality calls data w h c s C V F Gn R. apply (C46_decodes_iff_simd P quality calls data w h c C V F Gn) in R.
  destruct R as (b & j & E & D & A). exists b, j. split; [exact E|]. split; [exact D|].
  apply (reconstruct avx2_dct _ _ (spec_color c) w h); [exact avx2_close'|apply V|apply V|exact (input_planes _ _ _ _ _ _ V)|exact A].
Qed.
Theorem C41_every_representable_image : forall P quality calls im pl, let s := settings_of quality calls in
  Forall call_wf calls -> valid_buffer P im pl ->
  (s_optimize s = true -> countable s (im_color im) (im_width im) (im_height im)) -> tables_generated s (im_color im) (im_width im) (im_height im) (run_encode_image P quality calls im) ->
  representable int_dct s (im_color im) pl (im_width im) (im_height im) ->
  exists bytes j, exec (run_encode_image P quality calls im) = (bytes, Ok tt) /\ decode bytes = Some j /\
    faithful (252 / 100) s pl j.
Proof.
  intros P quality calls im pl s C V F Gn R. apply (C46_decodes_iff_image P quality calls im pl C V F Gn) in R.
  destruct R as (b & j & E & D & A). exists b, j. split; [exact E|]. split; [exact D|]. pose proof (vb_image _ _ _ V) as I.
  apply (reconstruct int_dct _ _ (im_color im) (im_width im) (im_height im)); [exact int_close|apply I|apply I|exact (image_planes _ _ _ I)|exact A].
Qed.

(** Quality 100 with the built-in tables: every block is reconstructed with a mean square error below 0.67, and
    no sample is off by more than 6.6. *)
Lemma mean_const k : mean_square (fun _ _ => k) = k * k.
Proof. unfold mean_square, rsum8. field. Qed.
Lemma one_of_sum f i : (i < 8)%nat -> (forall k, (k < 8)%nat -> 0 <= f k) -> f i <= rsum8 f.
Proof.
  intros Hi Hf. pose proof (Hf 0%nat ltac:(lia)). pose proof (Hf 1%nat ltac:(lia)). pose proof (Hf 2%nat ltac:(lia)). pose proof (Hf 3%nat ltac:(lia)).
  pose proof (Hf 4%nat ltac:(lia)). pose proof (Hf 5%nat ltac:(lia)). pose proof (Hf 6%nat ltac:(lia)). pose proof (Hf 7%nat ltac:(lia)).
  unfold rsum8. do 8 (destruct i as [|i]; [lra|]). lia.
Qed.
Theorem C41_best_quality : forall quality calls pl j,
  (100 <= quality)%Z -> let s := settings_of quality calls in builtin (s_luma s) -> builtin (s_chroma s) ->
  faithful (252 / 100) s pl j ->
  forall ci c by_ bx, nth_error (fr_comps (j_frame j)) ci = Some c ->
    (0 <= by_ < blocks_high (j_frame j) c)%Z -> (0 <= bx < blocks_wide (j_frame j) c)%Z ->
    let difference y x := reconstructed j ci by_ bx y x - IZR (sample_at pl (j_frame j) ci c by_ bx y x) in
    mean_square difference <= 67 / 100 /\
    forall y x, (y < 8)%nat -> (x < 8)%nat -> Rabs (difference y x) <= 66 / 10.
Proof.
  intros quality calls pl j Hq s B1 B2 H ci c by_ bx Hc Hby Hbx d.
  assert (M : mean_square d <= 67 / 100).
  { eapply Rle_trans; [exact (H ci c by_ bx Hc Hby Hbx)|].
    assert (E : mean_square (fun v u => quantizer_error (252 / 100) (quantizer s (co_tq c) (Z.of_nat (8 * v + u)))) = mean_square (fun _ _ => 815 / 1000)).
    { unfold mean_square. f_equal. apply rsum8_ext. intros v Hv. apply rsum8_ext. intros u Hu.
      assert (Q : quantizer s (co_tq c) (Z.of_nat (8 * v + u)) = 1%Z).
      { assert (Qs : s_quality s = quality) by reflexivity.
        unfold quantizer. rewrite Qs. destruct (co_tq c =? 0)%Z; apply C13_best; assumption. }
      rewrite Q. unfold quantizer_error. cbn [Z.eqb Pos.eqb]. lra. }
    rewrite E, mean_const. lra. }
  split; [exact M|]. intros y x Hy Hx.
  assert (S : d y x * d y x <= 64 * (67 / 100)).
  { unfold mean_square in M.
    assert (A : d y x * d y x <= rsum8 (fun x => d y x * d y x)) by (apply (one_of_sum (fun x => d y x * d y x)); [assumption|intros; nra]).
    assert (A2 : rsum8 (fun x => d y x * d y x) <= rsum8 (fun y => rsum8 (fun x => d y x * d y x))).
    { apply (one_of_sum (fun y => rsum8 (fun x => d y x * d y x))); [assumption|]. intros k _. unfold rsum8. nra. }
    lra. }
  destruct (Rle_lt_dec 0 (d y x)) as [P|P]; [rewrite Rabs_pos_eq by assumption|rewrite Rabs_left by assumption]; nra.
Qed.

(** A case: 3 x 2 RGB pixels at quality 100. *)
Example C41_case : exists bytes j,
  exec (run_encode debug64 100 [] ex_data 3 2 Rgb) = (bytes, Ok tt) /\ decode bytes = Some j /\
  faithful (252 / 100) (settings_of 100 []) (spec_plane Rgb ex_data 3) j /\
  builtin (s_luma (settings_of 100 [])) /\ builtin (s_chroma (settings_of 100 [])) /\
  sample_at (spec_plane Rgb ex_data 3) (j_frame j) 0 {| co_id := 0; co_h := 1; co_v := 1; co_tq := 0 |} 0 0 0 0 = 76%Z.
Proof.
  assert (C : std_config 100 []) by (constructor; cbn; try exact I; try lia; try reflexivity; constructor).
  destruct (C01_round_trip debug64 100 [] ex_data 3 2 Rgb C ex_valid) as (b & j & E & _ & D & A).
  exists b, j. split; [exact E|]. split; [exact D|]. split; [|split; [exact I|split; [exact I|]]].
  - apply (reconstruct int_dct _ _ (spec_color Rgb) 3 2); [exact int_close|lia|lia|exact (input_planes _ _ _ _ _ _ ex_valid)|exact A].
  - rewrite (da_frame _ _ _ _ _ _ _ A). vm_compute. reflexivity.
Qed.
