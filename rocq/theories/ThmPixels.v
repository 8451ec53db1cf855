(** C54: the pixels a decoder shows are the caller's pixels, up to a bounded error. *)
From Coq Require Import Reals Lra.
From Verif Require Import MApi MAvx2 SImage SApi SHuff SDct SReal SPixels SDecide SAvx2 PReal PIdct PPixel PPix PRound PAvx2 T81
  ThmRound ThmColor ThmQuant ThmDecide ThmAvx2 ThmReal ThmAll.
From Coq Require Import ZArith List Bool Lia.
Import ListNotations.
Open Scope R_scope.

(** ** Colours survive the conversion and its inverse: no channel is off by more than 1. *)
Theorem C54_colour : forall r g b y cb cr v k,
  (0 <= r <= 255)%Z -> (0 <= g <= 255)%Z -> (0 <= b <= 255)%Z -> rgb_to_ycbcr r g b = (y, cb, cr) ->
  nearest_byte (inverse k (IZR y) (IZR cb) (IZR cr)) v ->
  (Z.abs (v - match k with O => r | 1%nat => g | _ => b end) <= 1)%Z.
Proof.
  intros r g b y cb cr v k Hr Hg Hb E N. rewrite rgb_to_ycbcr_spec in E by assumption. inversion E; subst; clear E.
  pose proof (conv_back k r g b (fun i => IZR (spec_ycc i r g b)) (fun _ => 0) Hr Hg Hb) as C.
  specialize (C ltac:(intros i _; rewrite Rminus_diag_eq by reflexivity; rewrite Rabs_R0; lra)). cbn [spec_ycc] in C.
  set (p := match k with O => r | 1%nat => g | _ => b end) in *.
  assert (Hp : (0 <= p <= 255)%Z) by (unfold p; destruct k as [|[|k]]; assumption).
  pose proof (nearest_close _ _ _ _ N Hp C) as D.
  assert (B : mix k (fun _ => 0) + / 2 < 2) by (destruct k as [|[|k]]; cbn [mix]; lra).
  assert (L : IZR (Z.abs (v - p)) < 2) by (rewrite abs_IZR; lra). apply lt_IZR in L. lia.
Qed.

(** ** Whole files without chroma subsampling *)
Lemma full_comps c s : full_resolution c s ->
  forall ci, (Z.of_nat ci < num_components (spec_color c))%Z ->
  exists co, nth_error (comps_of (s_sampling s) (spec_color c)) ci = Some co /\ co_h co = 1%Z /\ co_v co = 1%Z.
Proof.
  intros H ci Hci. unfold full_resolution in H. unfold comps_of. destruct (factors (s_sampling s)) as [fh fv]. destruct H as [H|H].
  - rewrite H in *. cbn [num_components] in Hci. assert (ci = 0%nat) by lia. subst ci. eexists. split; [reflexivity|]. split; reflexivity.
  - inversion H; subst. destruct (spec_color c); cbn [num_components] in Hci;
      do 4 (destruct ci as [|ci]; [first [lia|eexists; split; [reflexivity|split; reflexivity]]|]); lia.
Qed.
Lemma full_max c s w h : full_resolution c s -> hmax (frame_for s (spec_color c) w h) = 1%Z /\ vmax (frame_for s (spec_color c) w h) = 1%Z.
Proof.
  intros H. unfold full_resolution in H. unfold hmax, vmax. cbn [frame_for fr_comps]. unfold comps_of. destruct (factors (s_sampling s)) as [fh fv]. destruct H as [H|H].
  - rewrite H. split; reflexivity.
  - inversion H; subst. destruct (spec_color c); split; reflexivity.
Qed.
(** The table of component [ci]. *)
Definition dest_of (c : ctype) (ci : nat) : Z :=
  match spec_color c, ci with
  | JLuma, _ => 0 | JYcbcr, O => 0 | JYcbcr, _ => 1 | JCmyk, 3%nat => 0 | JCmyk, _ => 1
  | JYcck, O => 0 | JYcck, 3%nat => 0 | JYcck, _ => 1
  end.
Lemma dest_ok c s ci co : nth_error (comps_of (s_sampling s) (spec_color c)) ci = Some co -> co_tq co = dest_of c ci.
Proof.
  unfold comps_of, dest_of. destruct (factors (s_sampling s)) as [fh fv]. destruct (spec_color c);
    do 4 (destruct ci as [|ci]; [intros H; inversion H; reflexivity|]); destruct ci; discriminate.
Qed.
Lemma combo_tables c k e0 e1 : (Z.of_nat k < num_components (spec_color c))%Z -> 0 <= e0 -> 0 <= e1 ->
  combo c k (fun ci => if (dest_of c ci =? 0)%Z then e0 else e1) <= pixel_error c k e0 e1.
Proof.
  intros Hk H0 H1. destruct c; cbn [spec_color num_components] in Hk; unfold combo, pixel_error, mix, mixed, dest_of; cbn [spec_color];
    do 4 (destruct k as [|k]; [cbn; try lra|]); try (exfalso; lia); cbn; try lra.
Qed.

Lemma faithful_shows e s c data w h j : Forall is_u8 data -> (1 <= w)%Z -> (1 <= h)%Z -> full_resolution c s -> j_frame j = frame_for s (spec_color c) w h ->
  faithful e s (spec_plane c data w) j ->
  shows c data w h j
    (fun k => pixel_error c k (table_error e s 0) (table_error e s 1) + / 2)
    (fun k => pixel_error c k (8 * table_error e s 0) (8 * table_error e s 1) + / 2).
Proof.
  intros HD Hw Hh HF HJ H by_ bx k v Hby Hbx Hk Hv given.
  destruct (full_max c s w h HF) as [HM VM].
  set (d := fun ci y x => reconstructed j ci by_ bx y x - IZR (spec_plane c data w ci (Z.min (h - 1) (8 * by_ + Z.of_nat y)) (Z.min (w - 1) (8 * bx + Z.of_nat x)))).
  assert (R : forall ci, (Z.of_nat ci < num_components (spec_color c))%Z -> rms (d ci) <= (if (dest_of c ci =? 0)%Z then table_error e s 0 else table_error e s 1)).
  { intros ci Hci. destruct (full_comps c s HF ci Hci) as (co & Hco & H1 & H2).
    assert (N : nth_error (fr_comps (j_frame j)) ci = Some co) by (rewrite HJ; exact Hco).
    pose proof (H ci co by_ bx N) as M. rewrite HJ in M.
    assert (BH : blocks_high (frame_for s (spec_color c) w h) co = cdiv h 8).
    { unfold blocks_high, comp_height. rewrite VM, H2. cbn [frame_for fr_height]. rewrite Z.mul_1_r. unfold cdiv. rewrite Z.div_1_r. f_equal. lia. }
    assert (BW : blocks_wide (frame_for s (spec_color c) w h) co = cdiv w 8).
    { unfold blocks_wide, comp_width. rewrite HM, H1. cbn [frame_for fr_width]. rewrite Z.mul_1_r. unfold cdiv. rewrite Z.div_1_r. f_equal. lia. }
    rewrite BH, BW in M. specialize (M Hby Hbx).
    assert (E : rms (d ci) <= table_error e s (co_tq co)).
    { unfold table_error, rms. apply sqrt_le_1_alt. eapply Rle_trans; [|exact M]. apply Req_le. unfold mean_square. f_equal. apply rsum8_ext. intros y _.
      apply rsum8_ext. intros x _. unfold d, sample_at. rewrite HM, VM, H1, H2. cbn [frame_for fr_height fr_width]. rewrite Z.div_1_r, !Z.mul_1_r. reflexivity. }
    rewrite (dest_ok c s ci co Hco) in E. assert (D : dest_of c ci = 0%Z \/ dest_of c ci = 1%Z).
    { unfold dest_of. destruct (spec_color c); do 4 (destruct ci as [|ci]; [auto|]); auto. }
    destruct D as [D|D]; rewrite D in *; cbn [Z.eqb]; exact E. }
  assert (P : forall y x, (y < 8)%nat -> (x < 8)%nat -> Rabs (IZR (v y x - given y x)) <= combo c k (fun i => Rabs (d i y x)) + / 2).
  { intros y x Hy Hx. apply nearest_close with (x := shown c (fun ci => reconstructed j ci by_ bx y x) k); [now apply Hv| |].
    - unfold given, pixel_byte. set (n := Z.to_nat _). destruct (nth_in_or_default n data 0%Z) as [I|E]; [|rewrite E; lia].
      rewrite Forall_forall in HD. specialize (HD _ I). unfold is_u8 in HD. lia.
    - apply shown_close; [assumption|assumption|]. intros i Hi. unfold d. lra. }
  assert (T0 : forall d, 0 <= table_error e s d) by (intros; apply rms_nonneg).
  split.
  - eapply Rle_trans; [apply (rms_mono _ (fun y x => combo c k (fun i => Rabs (d i y x)) + / 2)); intros y x Hy Hx|].
    + eapply Rle_trans; [now apply P|]. apply RRle_abs.
    + eapply Rle_trans; [apply rms_add|]. rewrite rms_const by lra. apply Rplus_le_compat_r.
      eapply Rle_trans; [apply rms_combo|]. eapply Rle_trans; [apply combo_mono; [assumption|exact R]|]. apply combo_tables; [assumption|apply T0|apply T0].
  - intros y x Hy Hx. eapply Rle_trans; [now apply P|]. apply Rplus_le_compat_r.
    eapply Rle_trans; [|apply combo_tables; [assumption|pose proof (T0 0%Z); lra|pose proof (T0 1%Z); lra]]. apply combo_mono; [assumption|]. intros i Hi.
    pose proof (peak (d i) y x Hy Hx). pose proof (R i Hi) as Ri. destruct (dest_of c i =? 0)%Z; lra.
Qed.

(** ** C54: every call whose file represents the image (C46) and that does not subsample. *)
Theorem C54_pixels : forall P quality calls data w h c, let s := settings_of quality calls in
  valid_call P quality calls data w h c -> generated P quality calls data w h c -> full_resolution c s ->
  representable int_dct s (spec_color c) (spec_plane c data w) w h ->
  exists bytes j, exec (run_encode P quality calls data w h c) = (bytes, Ok tt) /\ decode bytes = Some j /\
    shows c data w h j
      (fun k => pixel_error c k (table_error (252 / 100) s 0) (table_error (252 / 100) s 1) + / 2)
      (fun k => pixel_error c k (8 * table_error (252 / 100) s 0) (8 * table_error (252 / 100) s 1) + / 2).
Proof.
  intros P quality calls data w h c s [C V F] Gn HF R. apply (C46_decodes_iff P quality calls data w h c C V F Gn) in R.
  destruct R as (b & j & E & D & A). exists b, j. split; [exact E|]. split; [exact D|].
  apply faithful_shows; [apply V|apply V|apply V|exact HF|apply A|].
  apply (reconstruct int_dct _ _ (spec_color c) w h); [exact int_close|apply V|apply V|exact (input_planes _ _ _ _ _ _ V)|exact A].
Qed.
Theorem C54_pixels_simd : forall P quality calls data w h c, let s := settings_of quality calls in
  valid_call P quality calls data w h c -> generated_simd P quality calls data w h c -> full_resolution c s ->
  representable avx2_dct s (spec_color c) (spec_plane c data w) w h ->
  exists bytes j, exec (run_encode_avx2 P quality calls data w h c) = (bytes, Ok tt) /\ decode bytes = Some j /\
    shows c data w h j
      (fun k => pixel_error c k (table_error (312 / 100) s 0) (table_error (312 / 100) s 1) + / 2)
      (fun k => pixel_error c k (8 * table_error (312 / 100) s 0) (8 * table_error (312 / 100) s 1) + / 2).
Proof.
  intros P quality calls data w h c s [C V F] Gn HF R. apply (C46_decodes_iff_simd P quality calls data w h c C V F Gn) in R.
  destruct R as (b & j & E & D & A). exists b, j. split; [exact E|]. split; [exact D|].
  apply faithful_shows; [apply V|apply V|apply V|exact HF|apply A|].
  apply (reconstruct avx2_dct _ _ (spec_color c) w h); [exact avx2_close'|apply V|apply V|exact (input_planes _ _ _ _ _ _ V)|exact A].
Qed.

(** Quality 100 with the built-in tables (which does not subsample unless told so): in every 8x8 block every byte of
    the pixels is off by at most 4.2 in the root mean square, and nowhere by more than 20. *)
Lemma best_error e s d : (100 <= s_quality s)%Z -> builtin (s_luma s) -> builtin (s_chroma s) -> 0 <= e ->
  table_error e s d = / 2 + e / 8.
Proof.
  intros Hq B1 B2 He. unfold table_error.
  assert (E : rms (fun v u => quantizer_error e (quantizer s d (Z.of_nat (8 * v + u)))) = rms (fun _ _ => / 2 + e / 8)).
  { unfold rms. f_equal. unfold mean_square. f_equal. apply rsum8_ext. intros v Hv. apply rsum8_ext. intros u Hu.
    assert (Q : quantizer s d (Z.of_nat (8 * v + u)) = 1%Z).
    { unfold quantizer. destruct (d =? 0)%Z; apply C13_best; (assumption || lia). }
    rewrite Q. reflexivity. }
  rewrite E. apply rms_const. lra.
Qed.
Theorem C54_best_quality : forall P quality calls data w h c, let s := settings_of quality calls in
  valid_call P quality calls data w h c -> generated P quality calls data w h c -> full_resolution c s ->
  (100 <= quality)%Z -> builtin (s_luma s) -> builtin (s_chroma s) ->
  representable int_dct s (spec_color c) (spec_plane c data w) w h ->
  exists bytes j, exec (run_encode P quality calls data w h c) = (bytes, Ok tt) /\ decode bytes = Some j /\
    shows c data w h j (fun _ => 42 / 10) (fun _ => 20).
Proof.
  intros P quality calls data w h c s V Gn HF Hq B1 B2 R. destruct (C54_pixels P quality calls data w h c V Gn HF R) as (b & j & E & D & S).
  exists b, j. split; [exact E|]. split; [exact D|]. intros by_ bx k v Hby Hbx Hk Hv. specialize (S by_ bx k v Hby Hbx Hk Hv). cbv zeta in S |- *.
  destruct S as [S1 S2].
  assert (T : forall d, table_error (252 / 100) s d = 815 / 1000) by (intros d; rewrite best_error; [lra|exact Hq|assumption|assumption|lra]).
  fold s in S1. rewrite !T in S1.
  assert (M : forall k, mixed k (815 / 1000) (815 / 1000) <= 37 / 10 /\ mixed k (8 * (815 / 1000)) (8 * (815 / 1000)) <= 195 / 10)
    by (intros n; destruct n as [|[|n]]; cbn [mixed]; lra).
  assert (M2 : pixel_error c k (815 / 1000) (815 / 1000) <= 37 / 10 /\ pixel_error c k (8 * (815 / 1000)) (8 * (815 / 1000)) <= 195 / 10).
  { unfold pixel_error. destruct c; try apply M; try lra; destruct k as [|[|[|[|k]]]]; try apply M; lra. }
  split; [lra|]. intros y x Hy Hx. specialize (S2 y x Hy Hx). fold s in S2. rewrite !T in S2. lra.
Qed.

(** Every value has a nearest byte, so [shows] is about all decoders of that kind, not about none. *)
Theorem C54_nearest : forall x, exists v, nearest_byte x v.
Proof.
  intros x. set (t := Rmax 0 (Rmin 255 x)).
  assert (T : 0 <= t <= 255) by (unfold t, Rmax, Rmin; destruct (Rle_dec 255 x); destruct (Rle_dec 0 _); lra).
  destruct (archimed (t - / 2)) as [A B]. exists (up (t - / 2)). fold t. split.
  - split.
    + assert (L : (-1 < up (t - / 2))%Z) by (apply lt_IZR; lra). lia.
    + assert (L : (up (t - / 2) < 256)%Z) by (apply lt_IZR; lra). lia.
  - apply Rabs_le. fold t. lra.
Qed.
(** A case: 3 x 2 RGB pixels at quality 100. *)
Example C54_case : exists bytes j,
  exec (run_encode debug64 100 [] ex_data 3 2 Rgb) = (bytes, Ok tt) /\ decode bytes = Some j /\ shows Rgb ex_data 3 2 j (fun _ => 42 / 10) (fun _ => 20).
Proof.
  apply C54_best_quality; [constructor; [constructor|exact ex_valid|discriminate]|discriminate|right; reflexivity|lia|exact I|exact I|].
  split; [split|split].
  - intros co i Hc Hi. assert (Q : forall d, d = 0%Z \/ d = 1%Z -> (quantizer (settings_of 100 []) d i <= 255)%Z).
    { intros d [-> | ->].
      - pose proof (below64 (fun i => quantizer (settings_of 100 []) 0 i <=? 255)%Z ltac:(vm_compute; reflexivity) i Hi) as Q. cbv beta in Q. lia.
      - pose proof (below64 (fun i => quantizer (settings_of 100 []) 1 i <=? 255)%Z ltac:(vm_compute; reflexivity) i Hi) as Q. cbv beta in Q. lia. }
    apply Q. destruct Hc as [<-|[<-|[<-|[]]]]; cbn [co_tq]; auto.
  - intros i Hi.
    pose proof (below64 (fun i => negb (quantizer (settings_of 100 []) 1 i mod 256 =? 0))%Z ltac:(vm_compute; reflexivity) i Hi) as Q. cbv beta in Q. lia.
  - exact I.
  - discriminate.
Qed.
