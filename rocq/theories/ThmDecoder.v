(** C59: the error bounds for decoders that compute approximately. *)
From Coq Require Import Reals Lra.
From Verif Require Import MApi MAvx2 SImage SApi SHuff SDct SReal SPixels SDecoder SDecide SAvx2 PReal PIdct PPixel PPix PRound PAvx2 PPlat T81
  ThmRound ThmColor ThmQuant ThmDecide ThmAvx2 ThmReal ThmAll ThmPixels.
From Coq Require Import ZArith List Bool Lia.
Import ListNotations.
Open Scope R_scope.

Lemma clip_close x p : 0 <= p <= 255 -> Rabs (clip x - p) <= Rabs (x - p).
Proof.
  intros Hp. unfold clip, Rmax, Rmin. unfold Rabs. destruct (Rle_dec 255 x); destruct (Rle_dec 0 _); repeat destruct (Rcase_abs _); lra.
Qed.
Lemma decoder_off d a r p : 0 <= p <= 255 -> Rabs (a - r) <= d \/ Rabs (a - clip r) <= d -> Rabs (a - p) <= Rabs (r - p) + d.
Proof.
  intros Hp [H|H].
  - pose proof (tri3 a r p). lra.
  - pose proof (tri3 a (clip r) p). pose proof (clip_close r p Hp). lra.
Qed.
Lemma byte_close g x v p e : byte_within g x v -> (0 <= p <= 255)%Z -> Rabs (x - IZR p) <= e -> Rabs (IZR (v - p)) <= e + g.
Proof.
  intros [_ H] [P0 P1] Hx. apply IZR_le in P0, P1. rewrite minus_IZR. pose proof (tri3 (IZR v) (clip x) (IZR p)).
  pose proof (clip_close x (IZR p) ltac:(lra)). lra.
Qed.

Lemma faithful_samples d e s pl j : 0 <= d ->
  (forall ci co by_ bx y x, nth_error (fr_comps (j_frame j)) ci = Some co -> (0 <= by_)%Z -> (0 <= bx)%Z -> (y < 8)%nat -> (x < 8)%nat ->
     (0 <= sample_at pl (j_frame j) ci co by_ bx y x <= 255)%Z) ->
  faithful e s pl j -> samples_within d e s pl j.
Proof.
  intros Hd HR H smp HS ci co by_ bx Hc Hy Hx off.
  set (r := fun y x => reconstructed j ci by_ bx y x - IZR (sample_at pl (j_frame j) ci co by_ bx y x)).
  assert (O : forall y x, (y < 8)%nat -> (x < 8)%nat -> Rabs (off y x) <= Rabs (r y x) + d).
  { intros y x Ly Lx. unfold off, r. apply decoder_off; [|exact (HS ci co by_ bx y x Hc Hy Hx Ly Lx)].
    destruct (HR ci co by_ bx y x Hc ltac:(lia) ltac:(lia) Ly Lx) as [R0 R1]. apply IZR_le in R0, R1. lra. }
  assert (Q : rms r <= table_error e s (co_tq co)).
  { unfold table_error, rms. apply sqrt_le_1_alt. exact (H ci co by_ bx Hc Hy Hx). }
  split.
  - eapply Rle_trans; [apply (rms_mono _ (fun y x => Rabs (r y x) + d)); intros y x Ly Lx|].
    + eapply Rle_trans; [now apply O|]. apply RRle_abs.
    + eapply Rle_trans; [apply rms_add|]. rewrite rms_const, rms_abs by exact Hd. lra.
  - intros y x Ly Lx. pose proof (O y x Ly Lx). pose proof (peak r y x Ly Lx). lra.
Qed.

Lemma sample_range s color w h pl ci co by_ bx y x : (1 <= w)%Z -> (1 <= h)%Z ->
  (forall i y x, (i < length (comps_of (s_sampling s) color))%nat -> (0 <= y < h)%Z -> (0 <= x < w)%Z -> (0 <= pl i y x <= 255)%Z) ->
  nth_error (fr_comps (frame_for s color w h)) ci = Some co -> (0 <= by_)%Z -> (0 <= bx)%Z ->
  (0 <= sample_at pl (frame_for s color w h) ci co by_ bx y x <= 255)%Z.
Proof.
  intros Hw Hh Hpl Hc Hy Hx. unfold sample_at. cbn [frame_for fr_height fr_width].
  assert (Hci : (ci < length (comps_of (s_sampling s) color))%nat) by (apply nth_error_Some; cbn [frame_for fr_comps] in Hc; congruence).
  set (a := (vmax _ / co_v co)%Z). set (b := (hmax _ / co_h co)%Z).
  assert (P : (0 <= a /\ 0 <= b)%Z).
  { apply nth_error_In in Hc. unfold a, b, vmax, hmax. cbn [frame_for fr_comps] in *. unfold comps_of in *.
    destruct (s_sampling s), color; cbn [factors] in *; repeat (destruct Hc as [<-|Hc]; [cbn; lia|]); destruct Hc. }
  destruct P as [Pa Pb]. clearbody a b.
  assert (N1 : (0 <= (8 * by_ + Z.of_nat y) * a)%Z) by (apply Z.mul_nonneg_nonneg; lia).
  assert (N2 : (0 <= (8 * bx + Z.of_nat x) * b)%Z) by (apply Z.mul_nonneg_nonneg; lia).
  apply Hpl; [exact Hci|lia|lia].
Qed.

(** ** C59: samples, every sampling factor
    [d]: how far the decoder's samples are from the exact ones. *)
Theorem C59_samples : forall d P quality calls data w h c, let s := settings_of quality calls in
  0 <= d -> valid_call P quality calls data w h c -> generated P quality calls data w h c ->
  representable int_dct s (spec_color c) (spec_plane c data w) w h ->
  exists bytes j, exec (run_encode P quality calls data w h c) = (bytes, Ok tt) /\ decode bytes = Some j /\
    samples_within d (252 / 100) s (spec_plane c data w) j.
Proof.
  intros d P quality calls data w h c s Hd [C V F] Gn R. apply (C46_decodes_iff P quality calls data w h c C V F Gn) in R.
  destruct R as (b & j & E & D & A). exists b, j. split; [exact E|]. split; [exact D|].
  apply faithful_samples; [exact Hd| |].
  - rewrite (da_frame _ _ _ _ _ _ _ A). intros ci co by_ bx y x Hc Hy Hx _ _. apply (sample_range s (spec_color c) w h); try assumption; [apply V|apply V|exact (input_planes _ _ _ _ _ _ V)].
  - apply (reconstruct int_dct _ _ (spec_color c) w h); [exact int_close|apply V|apply V|exact (input_planes _ _ _ _ _ _ V)|exact A].
Qed.
Theorem C59_samples_simd : forall d P quality calls data w h c, let s := settings_of quality calls in
  0 <= d -> valid_call P quality calls data w h c -> generated_simd P quality calls data w h c ->
  representable avx2_dct s (spec_color c) (spec_plane c data w) w h ->
  exists bytes j, exec (run_encode_avx2 P quality calls data w h c) = (bytes, Ok tt) /\ decode bytes = Some j /\
    samples_within d (312 / 100) s (spec_plane c data w) j.
Proof.
  intros d P quality calls data w h c s Hd [C V F] Gn R. apply (C46_decodes_iff_simd P quality calls data w h c C V F Gn) in R.
  destruct R as (b & j & E & D & A). exists b, j. split; [exact E|]. split; [exact D|].
  apply faithful_samples; [exact Hd| |].
  - rewrite (da_frame _ _ _ _ _ _ _ A). intros ci co by_ bx y x Hc Hy Hx _ _. apply (sample_range s (spec_color c) w h); try assumption; [apply V|apply V|exact (input_planes _ _ _ _ _ _ V)].
  - apply (reconstruct avx2_dct _ _ (spec_color c) w h); [exact avx2_close'|apply V|apply V|exact (input_planes _ _ _ _ _ _ V)|exact A].
Qed.
Theorem C59_samples_image : forall d P quality calls im pl, let s := settings_of quality calls in
  0 <= d -> Forall call_wf calls -> valid_buffer P im pl -> (s_optimize s = true -> countable s (im_color im) (im_width im) (im_height im)) -> tables_generated s (im_color im) (im_width im) (im_height im) (run_encode_image P quality calls im) ->
  representable int_dct s (im_color im) pl (im_width im) (im_height im) ->
  exists bytes j, exec (run_encode_image P quality calls im) = (bytes, Ok tt) /\ decode bytes = Some j /\
    samples_within d (252 / 100) s pl j.
Proof.
  intros d P quality calls im pl s Hd C V F Gn R. apply (C46_decodes_iff_image P quality calls im pl C V F Gn) in R.
  destruct R as (b & j & E & D & A). exists b, j. split; [exact E|]. split; [exact D|]. pose proof (vb_image _ _ _ V) as I.
  apply faithful_samples; [exact Hd| |].
  - rewrite (da_frame _ _ _ _ _ _ _ A). intros ci co by_ bx y x Hc Hy Hx _ _. apply (sample_range s (im_color im) (im_width im) (im_height im)); try assumption; [apply I|apply I|exact (image_planes _ _ _ I)].
  - apply (reconstruct int_dct _ _ (im_color im) (im_width im) (im_height im)); [exact int_close|apply I|apply I|exact (image_planes _ _ _ I)|exact A].
Qed.

(** ** Pixels, no subsampling *)
Lemma samples_show d g e s c data w h j : Forall is_u8 data -> 0 <= d -> 0 <= g -> full_resolution c s -> j_frame j = frame_for s (spec_color c) w h ->
  samples_within d e s (spec_plane c data w) j ->
  shows_within d g c data w h j
    (fun k => pixel_error c k (table_error e s 0 + d) (table_error e s 1 + d) + g)
    (fun k => pixel_error c k (8 * table_error e s 0 + d) (8 * table_error e s 1 + d) + g).
Proof.
  intros HD Hd Hg HF HJ H smp HS by_ bx k v Hby Hbx Hk Hv given.
  destruct (full_max c s w h HF) as [HM VM].
  set (o := fun ci y x => smp ci by_ bx y x - IZR (spec_plane c data w ci (Z.min (h - 1) (8 * by_ + Z.of_nat y)) (Z.min (w - 1) (8 * bx + Z.of_nat x)))).
  assert (R : forall ci, (Z.of_nat ci < num_components (spec_color c))%Z ->
    rms (o ci) <= (if (dest_of c ci =? 0)%Z then table_error e s 0 + d else table_error e s 1 + d) /\
    forall y x, (y < 8)%nat -> (x < 8)%nat -> Rabs (o ci y x) <= (if (dest_of c ci =? 0)%Z then 8 * table_error e s 0 + d else 8 * table_error e s 1 + d)).
  { intros ci Hci. destruct (full_comps c s HF ci Hci) as (co & Hco & H1 & H2).
    assert (N : nth_error (fr_comps (j_frame j)) ci = Some co) by (rewrite HJ; exact Hco).
    pose proof (H smp HS ci co by_ bx N) as M. rewrite HJ in M.
    assert (BH : blocks_high (frame_for s (spec_color c) w h) co = cdiv h 8).
    { unfold blocks_high, comp_height. rewrite VM, H2. cbn [frame_for fr_height]. rewrite Z.mul_1_r. unfold cdiv. rewrite Z.div_1_r. f_equal. lia. }
    assert (BW : blocks_wide (frame_for s (spec_color c) w h) co = cdiv w 8).
    { unfold blocks_wide, comp_width. rewrite HM, H1. cbn [frame_for fr_width]. rewrite Z.mul_1_r. unfold cdiv. rewrite Z.div_1_r. f_equal. lia. }
    rewrite BH, BW in M. specialize (M Hby Hbx). destruct M as [M1 M2].
    assert (E : forall y x, smp ci by_ bx y x - IZR (sample_at (spec_plane c data w) (frame_for s (spec_color c) w h) ci co by_ bx y x) = o ci y x).
    { intros y x. unfold o, sample_at. rewrite HM, VM, H1, H2. cbn [frame_for fr_height fr_width]. rewrite Z.div_1_r, !Z.mul_1_r. reflexivity. }
    assert (M1' : rms (o ci) <= table_error e s (co_tq co) + d).
    { eapply Rle_trans; [|exact M1]. apply rms_mono. intros y x _ _. rewrite E. apply Rle_refl. }
    assert (M2' : forall y x, (y < 8)%nat -> (x < 8)%nat -> Rabs (o ci y x) <= 8 * table_error e s (co_tq co) + d).
    { intros y x Hy Hx. rewrite <- E. now apply M2. }
    rewrite (dest_ok c s ci co Hco) in M1', M2'. assert (D : dest_of c ci = 0%Z \/ dest_of c ci = 1%Z).
    { unfold dest_of. destruct (spec_color c); do 4 (destruct ci as [|ci]; [auto|]); auto. }
    destruct D as [D|D]; rewrite D in *; cbn [Z.eqb]; split; assumption. }
  assert (P : forall y x, (y < 8)%nat -> (x < 8)%nat -> Rabs (IZR (v y x - given y x)) <= combo c k (fun i => Rabs (o i y x)) + g).
  { intros y x Hy Hx. apply byte_close with (x := shown c (fun ci => smp ci by_ bx y x) k); [now apply Hv| |].
    - unfold given, pixel_byte. set (n := Z.to_nat _). destruct (nth_in_or_default n data 0%Z) as [I|E]; [|rewrite E; lia].
      rewrite Forall_forall in HD. specialize (HD _ I). unfold is_u8 in HD. lia.
    - apply shown_close; [assumption|assumption|]. intros i Hi. unfold o. lra. }
  assert (T0 : forall d, 0 <= table_error e s d) by (intros; apply rms_nonneg). pose proof (T0 0%Z) as T1. pose proof (T0 1%Z) as T2.
  split.
  - eapply Rle_trans; [apply (rms_mono _ (fun y x => combo c k (fun i => Rabs (o i y x)) + g)); intros y x Hy Hx|].
    + eapply Rle_trans; [now apply P|]. apply RRle_abs.
    + eapply Rle_trans; [apply rms_add|]. rewrite rms_const by exact Hg. apply Rplus_le_compat_r.
      eapply Rle_trans; [apply rms_combo|]. eapply Rle_trans; [apply combo_mono; [assumption|intros i Hi; apply (R i Hi)]|]. apply combo_tables; [assumption|lra|lra].
  - intros y x Hy Hx. eapply Rle_trans; [now apply P|]. apply Rplus_le_compat_r.
    eapply Rle_trans; [|apply combo_tables; [assumption| |]; lra]. apply combo_mono; [assumption|]. intros i Hi. now apply (R i Hi).
Qed.
Theorem C59_pixels : forall d g P quality calls data w h c, let s := settings_of quality calls in
  0 <= d -> 0 <= g -> valid_call P quality calls data w h c -> generated P quality calls data w h c -> full_resolution c s ->
  representable int_dct s (spec_color c) (spec_plane c data w) w h ->
  exists bytes j, exec (run_encode P quality calls data w h c) = (bytes, Ok tt) /\ decode bytes = Some j /\
    shows_within d g c data w h j
      (fun k => pixel_error c k (table_error (252 / 100) s 0 + d) (table_error (252 / 100) s 1 + d) + g)
      (fun k => pixel_error c k (8 * table_error (252 / 100) s 0 + d) (8 * table_error (252 / 100) s 1 + d) + g).
Proof.
  intros d g P quality calls data w h c s Hd Hg V Gn HF R. destruct (C59_samples d P quality calls data w h c Hd V Gn R) as (b & j & E & D & S).
  exists b, j. split; [exact E|]. split; [exact D|].
  assert (HJ : j_frame j = frame_for s (spec_color c) w h).
  { destruct V as [C V F]. apply (C46_decodes_iff P quality calls data w h c C V F Gn) in R. destruct R as (b' & j' & E' & D' & A).
    assert (b' = b) by congruence. subst b'. assert (j' = j) by congruence. subst j'. apply A. }
  apply samples_show; try assumption. apply V.
Qed.
Theorem C59_pixels_simd : forall d g P quality calls data w h c, let s := settings_of quality calls in
  0 <= d -> 0 <= g -> valid_call P quality calls data w h c -> generated_simd P quality calls data w h c -> full_resolution c s ->
  representable avx2_dct s (spec_color c) (spec_plane c data w) w h ->
  exists bytes j, exec (run_encode_avx2 P quality calls data w h c) = (bytes, Ok tt) /\ decode bytes = Some j /\
    shows_within d g c data w h j
      (fun k => pixel_error c k (table_error (312 / 100) s 0 + d) (table_error (312 / 100) s 1 + d) + g)
      (fun k => pixel_error c k (8 * table_error (312 / 100) s 0 + d) (8 * table_error (312 / 100) s 1 + d) + g).
Proof.
  intros d g P quality calls data w h c s Hd Hg V Gn HF R. destruct (C59_samples_simd d P quality calls data w h c Hd V Gn R) as (b & j & E & D & S).
  exists b, j. split; [exact E|]. split; [exact D|].
  assert (HJ : j_frame j = frame_for s (spec_color c) w h).
  { destruct V as [C V F]. apply (C46_decodes_iff_simd P quality calls data w h c C V F Gn) in R. destruct R as (b' & j' & E' & D' & A).
    assert (b' = b) by congruence. subst b'. assert (j' = j) by congruence. subst j'. apply A. }
  apply samples_show; try assumption. apply V.
Qed.

(** Quality 100, built-in tables, a decoder that satisfies the peak requirement of IEEE 1180 (3/2 including the rounding)
    and converts colours within one unit: 9 in the root mean square, 25 at most. *)
Theorem C59_best_quality : forall P quality calls data w h c, let s := settings_of quality calls in
  valid_call P quality calls data w h c -> generated P quality calls data w h c -> full_resolution c s ->
  (100 <= quality)%Z -> builtin (s_luma s) -> builtin (s_chroma s) ->
  representable int_dct s (spec_color c) (spec_plane c data w) w h ->
  exists bytes j, exec (run_encode P quality calls data w h c) = (bytes, Ok tt) /\ decode bytes = Some j /\
    shows_within (3 / 2) 1 c data w h j (fun _ => 9) (fun _ => 25).
Proof.
  intros P quality calls data w h c s V Gn HF Hq B1 B2 R.
  destruct (C59_pixels (3 / 2) 1 P quality calls data w h c ltac:(lra) ltac:(lra) V Gn HF R) as (b & j & E & D & S).
  exists b, j. split; [exact E|]. split; [exact D|]. intros smp HS by_ bx k v Hby Hbx Hk Hv. specialize (S smp HS by_ bx k v Hby Hbx Hk Hv). cbv zeta in S |- *.
  destruct S as [S1 S2].
  assert (T : forall d, table_error (252 / 100) s d = 815 / 1000) by (intros d; rewrite best_error; [lra|exact Hq|assumption|assumption|lra]).
  fold s in S1. rewrite !T in S1.
  assert (M : forall k, mixed k (815 / 1000 + 3 / 2) (815 / 1000 + 3 / 2) <= 8 /\ mixed k (8 * (815 / 1000) + 3 / 2) (8 * (815 / 1000) + 3 / 2) <= 24)
    by (intros n; destruct n as [|[|n]]; cbn [mixed]; lra).
  assert (M2 : pixel_error c k (815 / 1000 + 3 / 2) (815 / 1000 + 3 / 2) <= 8 /\ pixel_error c k (8 * (815 / 1000) + 3 / 2) (8 * (815 / 1000) + 3 / 2) <= 24).
  { unfold pixel_error. destruct c; try apply M; try lra; destruct k as [|[|[|[|k]]]]; try apply M; lra. }
  split; [lra|]. intros y x Hy Hx. specialize (S2 y x Hy Hx). fold s in S2. rewrite !T in S2. lra.
Qed.

(** ** Such decoders exist: for every file and every [d] of at least 1/2 there is one with integer samples 0..255, and
    for every value a byte within [g] of at least 1/2. *)
Theorem C59_decoders : forall d j, / 2 <= d -> exists smp : nat -> Z -> Z -> nat -> nat -> Z,
  (forall ci by_ bx y x, (0 <= smp ci by_ bx y x <= 255)%Z) /\ decodes_within d j (fun ci by_ bx y x => IZR (smp ci by_ bx y x)).
Proof.
  intros d j Hd. set (near := fun r : R => up (clip r - / 2)).
  assert (N : forall r, (0 <= near r <= 255)%Z /\ Rabs (IZR (near r) - clip r) <= / 2).
  { intros r. unfold near. assert (T : 0 <= clip r <= 255) by (unfold clip, Rmax, Rmin; destruct (Rle_dec 255 r); destruct (Rle_dec 0 _); lra).
    destruct (archimed (clip r - / 2)) as [A B]. split.
    - split.
      + assert (L : (-1 < up (clip r - / 2))%Z) by (apply lt_IZR; lra). lia.
      + assert (L : (up (clip r - / 2) < 256)%Z) by (apply lt_IZR; lra). lia.
    - apply Rabs_le. lra. }
  exists (fun ci by_ bx y x => near (reconstructed j ci by_ bx y x)). split.
  - intros. apply N.
  - intros ci co by_ bx y x _ _ _ _ _. right. eapply Rle_trans; [apply N|exact Hd].
Qed.
Example C59_case : exists bytes j,
  exec (run_encode debug64 100 [] ex_data 3 2 Rgb) = (bytes, Ok tt) /\ decode bytes = Some j /\ shows_within (3 / 2) 1 Rgb ex_data 3 2 j (fun _ => 9) (fun _ => 25).
Proof.
  apply C59_best_quality; [constructor; [constructor|exact ex_valid|discriminate]|discriminate|right; reflexivity|lia|exact I|exact I|].
  split; [split|split].
  - intros co i Hc Hi. assert (Q : forall d, d = 0%Z \/ d = 1%Z -> (quantizer (settings_of 100 []) d i <= 255)%Z).
    { intros d [-> | ->].
      - pose proof (below64 (fun i => quantizer (settings_of 100 []) 0 i <=? 255)%Z ltac:(vm_compute; reflexivity) i Hi) as Q. cbv beta in Q. lia.
      - pose proof (below64 (fun i => quantizer (settings_of 100 []) 1 i <=? 255)%Z ltac:(vm_compute; reflexivity) i Hi) as Q. cbv beta in Q. lia. }
    apply Q. destruct Hc as [<-|[<-|[<-|[]]]]; cbn [co_tq]; auto.
  - intros i Hi.
    pose proof (below64 (fun i => negb (quantizer (settings_of 100 []) 1 i mod 256 =? 0))%Z ltac:(vm_compute; reflexivity) i Hi) as Q. cbv beta in Q. lia.
  - exact I.
  - discriminate.
Qed.
