(** C53: a block depends on the pixels it covers only, wherever it is. *)
From Verif Require Import T81 SFile SEncode SHuff SAvx2 SSize SRestart SDecide SLocal MAvx2 PAvx2 PAvxDct PSmall PRest PDecide PCount PMax
  ThmRound ThmScan ThmHuff ThmBytes ThmRestart ThmDecide ThmAvx2 ThmAll.
From Coq Require Import ZArith List Bool Lia.
Import ListNotations.
Open Scope Z_scope.

Lemma transform_ext F T s1 s2 v u : transform_is F T -> (v < 8)%nat -> (u < 8)%nat ->
  (forall y x, (y < 8)%nat -> (x < 8)%nat -> s1 y x = s2 y x) -> T s1 v u = T s2 v u.
Proof.
  intros HF Hv Hu E. rewrite <- (HF s1 v u Hv Hu), <- (HF s2 v u Hv Hu). f_equal. f_equal. unfold block_of.
  apply map_ext_in. intros i Hi. apply in_zrange in Hi.
  assert (0 <= i / 8 < 8) by (split; [apply Z.div_pos; lia|apply Z.div_lt_upper_bound; lia]).
  pose proof (Z.mod_pos_bound i 8 ltac:(lia)). apply E; lia.
Qed.
Lemma plane_ext c data1 w1 y1 x1 data2 w2 y2 x2 ci : Z.of_nat ci < num_components (spec_color c) ->
  same_pixel c data1 w1 y1 x1 data2 w2 y2 x2 -> spec_plane c data1 w1 ci y1 x1 = spec_plane c data2 w2 ci y2 x2.
Proof.
  intros Hc H. unfold same_pixel in H. unfold spec_plane.
  destruct c; cbn [spec_bpp spec_color num_components] in *; rewrite ?(H 0), ?(H 1), ?(H 2), ?(H 3), ?(H (Z.of_nat ci)) by lia; reflexivity.
Qed.
Lemma comps_count s color ci c : nth_error (comps_of s color) ci = Some c -> Z.of_nat ci < num_components color.
Proof.
  intros H. assert (L : (ci < length (comps_of s color))%nat) by (apply nth_error_Some; congruence).
  assert (E : length (comps_of s color) = Z.to_nat (num_components color)) by (unfold comps_of; destruct (factors s), color; reflexivity). lia.
Qed.

Section Two.
  Variables (F : list Z -> list Z) (T : transform).
  Variable HF : transform_is F T.
  Variables (s1 s2 : settings) (c : ctype) (data1 data2 : list Z) (w1 h1 w2 h2 : Z) (j1 j2 : jpeg).
  Variable S : same_coding s1 s2.
  Variable A1 : decoded_with T s1 (spec_color c) w1 h1 (spec_plane c data1 w1) j1.
  Variable A2 : decoded_with T s2 (spec_color c) w2 h2 (spec_plane c data2 w2) j2.

  Lemma comps_same : fr_comps (j_frame j1) = fr_comps (j_frame j2).
  Proof.
    rewrite (da_frame _ _ _ _ _ _ _ A1), (da_frame _ _ _ _ _ _ _ A2). cbn [frame_for fr_comps]. destruct S as (_ & -> & _). reflexivity.
  Qed.
  Lemma blocks_same ci co by1 bx1 by2 bx2 k : nth_error (fr_comps (j_frame j1)) ci = Some co ->
    0 <= by1 < blocks_high (j_frame j1) co -> 0 <= bx1 < blocks_wide (j_frame j1) co ->
    0 <= by2 < blocks_high (j_frame j2) co -> 0 <= bx2 < blocks_wide (j_frame j2) co -> 0 <= k < 64 ->
    same_area c (j_frame j1) (j_frame j2) co data1 by1 bx1 data2 by2 bx2 ->
    exists v, coef j1 ci by1 bx1 k = Some v /\ coef j2 ci by2 bx2 k = Some v.
  Proof.
    intros Hc Y1 X1 Y2 X2 Hk HA. pose proof Hc as Hc2. rewrite comps_same in Hc2.
    assert (Hc1 : nth_error (comps_of (s_sampling s1) (spec_color c)) ci = Some co) by (rewrite (da_frame _ _ _ _ _ _ _ A1) in Hc; exact Hc).
    assert (Hc3 : nth_error (comps_of (s_sampling s2) (spec_color c)) ci = Some co) by (rewrite (da_frame _ _ _ _ _ _ _ A2) in Hc2; exact Hc2).
    pose proof (da_coef _ _ _ _ _ _ _ A1 ci co by1 bx1 k Hc1 Y1 X1 Hk) as E1.
    pose proof (da_coef _ _ _ _ _ _ _ A2 ci co by2 bx2 k Hc3 Y2 X2 Hk) as E2.
    rewrite E1, E2. eexists. split; [reflexivity|]. f_equal. clear E1 E2.
    rewrite (da_frame _ _ _ _ _ _ _ A1), (da_frame _ _ _ _ _ _ _ A2) in HA.
    destruct S as (S1 & S2 & S3 & S4). unfold expected. pose proof (zigzag_pos_range k Hk) as Hz. destruct (zigzag_pos k) as [v u].
    f_equal.
    - unfold quantizer. now rewrite S1, S3, S4.
    - symmetry. apply (transform_ext F T _ _ v u HF); [apply Hz|apply Hz|]. intros y x Hy Hx. unfold block_sample. f_equal.
      specialize (HA (Z.of_nat y) (Z.of_nat x) ltac:(lia) ltac:(lia)). unfold top, left, step_y, step_x in HA. cbn [frame_for fr_width fr_height] in HA.
      apply plane_ext; [exact (comps_count _ _ _ _ Hc1)|]. intros b Hb. specialize (HA b Hb).
      assert (R : forall n m p, (8 * n + m) * p = 8 * n * p + m * p) by (intros; ring). rewrite !R. exact HA.
  Qed.
End Two.

(** ** Geometry *)
Lemma steps_exact s color w h co : In co (fr_comps (frame_for s color w h)) -> let f := frame_for s color w h in
  0 < co_h co /\ 0 < co_v co /\ 0 < step_x f co /\ 0 < step_y f co /\ hmax f = step_x f co * co_h co /\ vmax f = step_y f co * co_v co.
Proof.
  cbn [frame_for fr_comps]. unfold comps_of. destruct (s_sampling s) eqn:E, color; cbn [factors];
    intros H; repeat (destruct H as [<-|H]; [unfold step_x, step_y, hmax, vmax; cbn [frame_for fr_comps]; rewrite E; cbn; lia|]); destruct H.
Qed.
Lemma cdiv_below n a b : 0 < b -> n < cdiv a b -> n * b < a.
Proof.
  intros Hb H. unfold cdiv in H. pose proof (Z.div_mod (a + b - 1) b ltac:(lia)) as E. pose proof (Z.mod_pos_bound (a + b - 1) b ltac:(lia)) as M.
  assert (n * b <= ((a + b - 1) / b - 1) * b) by (apply Z.mul_le_mono_nonneg_r; lia). lia.
Qed.
Lemma top_inside s color w h co by_ : let f := frame_for s color w h in In co (fr_comps f) -> by_ < blocks_high f co -> top f co by_ < h.
Proof.
  intros f Hc Hb. destruct (steps_exact s color w h co Hc) as (Ph & Pv & Px & Py & Eh & Ev). fold f in Px, Py, Eh, Ev.
  unfold blocks_high in Hb. apply cdiv_below in Hb; [|lia]. unfold comp_height in Hb. apply cdiv_below in Hb; [|rewrite Ev; apply Z.mul_pos_pos; assumption].
  change (fr_height f) with h in Hb. rewrite Ev in Hb. unfold top. nia.
Qed.
Lemma left_inside s color w h co bx : let f := frame_for s color w h in In co (fr_comps f) -> bx < blocks_wide f co -> left f co bx < w.
Proof.
  intros f Hc Hb. destruct (steps_exact s color w h co Hc) as (Ph & Pv & Px & Py & Eh & Ev). fold f in Px, Py, Eh, Ev.
  unfold blocks_wide in Hb. apply cdiv_below in Hb; [|lia]. unfold comp_width in Hb. apply cdiv_below in Hb; [|rewrite Eh; apply Z.mul_pos_pos; assumption].
  change (fr_width f) with w in Hb. rewrite Eh in Hb. unfold left. nia.
Qed.

(** ** C53
    Two successful calls with the same pixel format, quality, quantization tables and sampling factors (other settings,
    dimensions, platform: any).  Blocks that cover equal pixels have equal coefficients. *)
Theorem C53_blocks : forall P1 P2 q1 calls1 q2 calls2 c data1 w1 h1 data2 w2 h2,
  let s1 := settings_of q1 calls1 in let s2 := settings_of q2 calls2 in
  valid_call P1 q1 calls1 data1 w1 h1 c -> generated P1 q1 calls1 data1 w1 h1 c -> valid_call P2 q2 calls2 data2 w2 h2 c -> generated P2 q2 calls2 data2 w2 h2 c -> same_coding s1 s2 ->
  representable int_dct s1 (spec_color c) (spec_plane c data1 w1) w1 h1 ->
  representable int_dct s2 (spec_color c) (spec_plane c data2 w2) w2 h2 ->
  exists b1 b2 j1 j2,
    exec (run_encode P1 q1 calls1 data1 w1 h1 c) = (b1, Ok tt) /\ decode b1 = Some j1 /\
    exec (run_encode P2 q2 calls2 data2 w2 h2 c) = (b2, Ok tt) /\ decode b2 = Some j2 /\
    same_blocks c data1 data2 j1 j2.
Proof.
  intros P1 P2 q1 calls1 q2 calls2 c data1 w1 h1 data2 w2 h2 s1 s2 [C1 V1 F1] Gn1 [C2 V2 F2] Gn2 S R1 R2.
  apply (C46_decodes_iff P1 q1 calls1 data1 w1 h1 c C1 V1 F1 Gn1) in R1. apply (C46_decodes_iff P2 q2 calls2 data2 w2 h2 c C2 V2 F2 Gn2) in R2.
  destruct R1 as (b1 & j1 & E1 & D1 & A1). destruct R2 as (b2 & j2 & E2 & D2 & A2).
  exists b1, b2, j1, j2. split; [exact E1|]. split; [exact D1|]. split; [exact E2|]. split; [exact D2|].
  split; [exact (comps_same _ _ _ _ _ _ _ _ _ _ _ _ S A1 A2)|]. exact (blocks_same _ _ fdct_is_int_dct _ _ _ _ _ _ _ _ _ _ _ S A1 A2).
Qed.
Theorem C53_blocks_simd : forall P1 P2 q1 calls1 q2 calls2 c data1 w1 h1 data2 w2 h2,
  let s1 := settings_of q1 calls1 in let s2 := settings_of q2 calls2 in
  valid_call P1 q1 calls1 data1 w1 h1 c -> generated_simd P1 q1 calls1 data1 w1 h1 c -> valid_call P2 q2 calls2 data2 w2 h2 c -> generated_simd P2 q2 calls2 data2 w2 h2 c -> same_coding s1 s2 ->
  representable avx2_dct s1 (spec_color c) (spec_plane c data1 w1) w1 h1 ->
  representable avx2_dct s2 (spec_color c) (spec_plane c data2 w2) w2 h2 ->
  exists b1 b2 j1 j2,
    exec (run_encode_avx2 P1 q1 calls1 data1 w1 h1 c) = (b1, Ok tt) /\ decode b1 = Some j1 /\
    exec (run_encode_avx2 P2 q2 calls2 data2 w2 h2 c) = (b2, Ok tt) /\ decode b2 = Some j2 /\
    same_blocks c data1 data2 j1 j2.
Proof.
  intros P1 P2 q1 calls1 q2 calls2 c data1 w1 h1 data2 w2 h2 s1 s2 [C1 V1 F1] Gn1 [C2 V2 F2] Gn2 S R1 R2.
  apply (C46_decodes_iff_simd P1 q1 calls1 data1 w1 h1 c C1 V1 F1 Gn1) in R1. apply (C46_decodes_iff_simd P2 q2 calls2 data2 w2 h2 c C2 V2 F2 Gn2) in R2.
  destruct R1 as (b1 & j1 & E1 & D1 & A1). destruct R2 as (b2 & j2 & E2 & D2 & A2).
  exists b1, b2, j1, j2. split; [exact E1|]. split; [exact D1|]. split; [exact E2|]. split; [exact D2|].
  split; [exact (comps_same _ _ _ _ _ _ _ _ _ _ _ _ S A1 A2)|]. exact (blocks_same _ _ avx2_is_dct _ _ _ _ _ _ _ _ _ _ _ S A1 A2).
Qed.

Lemma within8 y p : 0 <= y < 8 -> 0 < p -> 0 <= y * p <= 7 * p.
Proof. nia. Qed.
Lemma aligned y p : 0 <= y -> 0 < p -> y mod (8 * p) = 0 -> y = 8 * (y / (8 * p)) * p /\ 0 <= y / (8 * p).
Proof. intros Hy Hp H. pose proof (Z.div_mod y (8 * p) ltac:(lia)) as E. split; [rewrite H in E; lia|apply Z.div_pos; lia]. Qed.
(** *** A changed pixel affects the blocks that cover it only *)
Lemma frames_decoded T s color w h pl j : decoded_with T s color w h pl j -> j_frame j = frame_for s color w h.
Proof. intros A. apply A. Qed.
Lemma local_core F T (HF : transform_is F T) s1 s2 c data1 data2 w h j1 j2 : same_coding s1 s2 ->
  decoded_with T s1 (spec_color c) w h (spec_plane c data1 w) j1 -> decoded_with T s2 (spec_color c) w h (spec_plane c data2 w) j2 ->
    let f := j_frame j1 in
    forall ci co by_ bx k, nth_error (fr_comps f) ci = Some co ->
      0 <= by_ < blocks_high f co -> 0 <= bx < blocks_wide f co -> 0 <= k < 64 ->
      (forall y x, 0 <= y < h -> 0 <= x < w -> top f co by_ <= y < top f co (by_ + 1) -> left f co bx <= x < left f co (bx + 1) ->
         same_pixel c data1 w y x data2 w y x) ->
      exists v, coef j1 ci by_ bx k = Some v /\ coef j2 ci by_ bx k = Some v.
Proof.
  intros S A1 A2.
  intros f ci co by_ bx k Hc Hy Hx Hk HA.
  pose proof (frames_decoded _ _ _ _ _ _ _ A1) as J1. pose proof (frames_decoded _ _ _ _ _ _ _ A2) as J2.
  assert (G : step_x (j_frame j2) co = step_x f co /\ step_y (j_frame j2) co = step_y f co /\
              blocks_high (j_frame j2) co = blocks_high f co /\ blocks_wide (j_frame j2) co = blocks_wide f co).
  { unfold f, step_x, step_y, blocks_high, blocks_wide, comp_height, comp_width, hmax, vmax. rewrite J1, J2. cbn [frame_for fr_comps fr_width fr_height].
    destruct S as (_ & -> & _). repeat split. }
  destruct G as (G1 & G2 & G3 & G4).
  apply (blocks_same _ _ HF _ _ _ _ _ _ _ _ _ _ _ S A1 A2 ci co by_ bx by_ bx k Hc Hy Hx); [rewrite G3; exact Hy|rewrite G4; exact Hx|exact Hk|].
  assert (In co (fr_comps f)) as Hi by (eapply nth_error_In; exact Hc). unfold f in Hi. rewrite J1 in Hi.
  destruct (steps_exact _ _ _ _ _ Hi) as (_ & _ & Px & Py & _). rewrite <- J1 in Px, Py. fold f in Px, Py.
  pose proof (top_inside s1 (spec_color c) w h co by_ Hi) as Ti. pose proof (left_inside s1 (spec_color c) w h co bx Hi) as Li.
  cbv zeta in Ti, Li. rewrite <- J1 in Ti, Li. fold f in Ti, Li. specialize (Ti ltac:(apply Hy)). specialize (Li ltac:(apply Hx)).
  assert (T0 : 0 <= top f co by_) by (unfold top; apply Z.mul_nonneg_nonneg; lia).
  assert (L0 : 0 <= left f co bx) by (unfold left; apply Z.mul_nonneg_nonneg; lia).
  assert (T1 : top f co (by_ + 1) = top f co by_ + 8 * step_y f co) by (unfold top; ring).
  assert (L1 : left f co (bx + 1) = left f co bx + 8 * step_x f co) by (unfold left; ring).
  intros y x Hy8 Hx8. unfold top at 2, left at 2. rewrite G1, G2. fold f. fold (top f co by_) (left f co bx).
  assert (W : fr_width f = w /\ fr_height f = h) by (unfold f; rewrite J1; split; reflexivity).
  assert (W2 : fr_width (j_frame j2) = w /\ fr_height (j_frame j2) = h) by (rewrite J2; split; reflexivity).
  destruct W as [-> ->]. destruct W2 as [-> ->].
  pose proof (within8 y (step_y f co) Hy8 Py) as Y. pose proof (within8 x (step_x f co) Hx8 Px) as X.
  apply HA; lia.
Qed.
Theorem C53_local : forall P1 P2 q1 calls1 q2 calls2 c data1 data2 w h,
  let s1 := settings_of q1 calls1 in let s2 := settings_of q2 calls2 in
  valid_call P1 q1 calls1 data1 w h c -> generated P1 q1 calls1 data1 w h c -> valid_call P2 q2 calls2 data2 w h c -> generated P2 q2 calls2 data2 w h c -> same_coding s1 s2 ->
  representable int_dct s1 (spec_color c) (spec_plane c data1 w) w h ->
  representable int_dct s2 (spec_color c) (spec_plane c data2 w) w h ->
  exists b1 b2 j1 j2,
    exec (run_encode P1 q1 calls1 data1 w h c) = (b1, Ok tt) /\ decode b1 = Some j1 /\
    exec (run_encode P2 q2 calls2 data2 w h c) = (b2, Ok tt) /\ decode b2 = Some j2 /\
    let f := j_frame j1 in
    forall ci co by_ bx k, nth_error (fr_comps f) ci = Some co ->
      0 <= by_ < blocks_high f co -> 0 <= bx < blocks_wide f co -> 0 <= k < 64 ->
      (forall y x, 0 <= y < h -> 0 <= x < w -> top f co by_ <= y < top f co (by_ + 1) -> left f co bx <= x < left f co (bx + 1) ->
         same_pixel c data1 w y x data2 w y x) ->
      exists v, coef j1 ci by_ bx k = Some v /\ coef j2 ci by_ bx k = Some v.
Proof.
  intros P1 P2 q1 calls1 q2 calls2 c data1 data2 w h s1 s2 [C1 V1 F1] Gn1 [C2 V2 F2] Gn2 S R1 R2.
  apply (C46_decodes_iff P1 q1 calls1 data1 w h c C1 V1 F1 Gn1) in R1. apply (C46_decodes_iff P2 q2 calls2 data2 w h c C2 V2 F2 Gn2) in R2.
  destruct R1 as (b1 & j1 & E1 & D1 & A1). destruct R2 as (b2 & j2 & E2 & D2 & A2).
  exists b1, b2, j1, j2. split; [exact E1|]. split; [exact D1|]. split; [exact E2|]. split; [exact D2|].
  exact (local_core _ _ fdct_is_int_dct _ _ _ _ _ _ _ _ _ S A1 A2).
Qed.
Theorem C53_local_simd : forall P1 P2 q1 calls1 q2 calls2 c data1 data2 w h,
  let s1 := settings_of q1 calls1 in let s2 := settings_of q2 calls2 in
  valid_call P1 q1 calls1 data1 w h c -> generated_simd P1 q1 calls1 data1 w h c -> valid_call P2 q2 calls2 data2 w h c -> generated_simd P2 q2 calls2 data2 w h c -> same_coding s1 s2 ->
  representable avx2_dct s1 (spec_color c) (spec_plane c data1 w) w h ->
  representable avx2_dct s2 (spec_color c) (spec_plane c data2 w) w h ->
  exists b1 b2 j1 j2,
    exec (run_encode_avx2 P1 q1 calls1 data1 w h c) = (b1, Ok tt) /\ decode b1 = Some j1 /\
    exec (run_encode_avx2 P2 q2 calls2 data2 w h c) = (b2, Ok tt) /\ decode b2 = Some j2 /\
    let f := j_frame j1 in
    forall ci co by_ bx k, nth_error (fr_comps f) ci = Some co ->
      0 <= by_ < blocks_high f co -> 0 <= bx < blocks_wide f co -> 0 <= k < 64 ->
      (forall y x, 0 <= y < h -> 0 <= x < w -> top f co by_ <= y < top f co (by_ + 1) -> left f co bx <= x < left f co (bx + 1) ->
         same_pixel c data1 w y x data2 w y x) ->
      exists v, coef j1 ci by_ bx k = Some v /\ coef j2 ci by_ bx k = Some v.
Proof.
  intros P1 P2 q1 calls1 q2 calls2 c data1 data2 w h s1 s2 [C1 V1 F1] Gn1 [C2 V2 F2] Gn2 S R1 R2.
  apply (C46_decodes_iff_simd P1 q1 calls1 data1 w h c C1 V1 F1 Gn1) in R1. apply (C46_decodes_iff_simd P2 q2 calls2 data2 w h c C2 V2 F2 Gn2) in R2.
  destruct R1 as (b1 & j1 & E1 & D1 & A1). destruct R2 as (b2 & j2 & E2 & D2 & A2).
  exists b1, b2, j1, j2. split; [exact E1|]. split; [exact D1|]. split; [exact E2|]. split; [exact D2|].
  exact (local_core _ _ avx2_is_dct _ _ _ _ _ _ _ _ _ S A1 A2).
Qed.

(** *** Encoding a part of an image *)
Lemma cdiv_shift a k b : 0 < b -> cdiv (a + k * b) b = cdiv a b + k.
Proof. intros Hb. unfold cdiv. replace (a + k * b + b - 1) with (a + b - 1 + k * b) by ring. apply Z.div_add. lia. Qed.
Lemma cdiv_mono a a' b : 0 < b -> a <= a' -> cdiv a b <= cdiv a' b.
Proof. intros Hb H. unfold cdiv. apply Z.div_le_mono; lia. Qed.

Lemma crop_core F T (HF : transform_is F T) s1 s2 c data1 w1 h1 data2 w2 h2 y0 x0 j1 j2 :
  let f1 := frame_for s1 (spec_color c) w1 h1 in let f2 := frame_for s2 (spec_color c) w2 h2 in same_coding s1 s2 ->
  decoded_with T s1 (spec_color c) w1 h1 (spec_plane c data1 w1) j1 -> decoded_with T s2 (spec_color c) w2 h2 (spec_plane c data2 w2) j2 ->
  0 <= y0 -> 0 <= x0 -> y0 + h2 <= h1 -> x0 + w2 <= w1 ->
  (forall co, In co (fr_comps f1) -> y0 mod (8 * step_y f1 co) = 0 /\ x0 mod (8 * step_x f1 co) = 0) ->
  (forall y x, 0 <= y < h2 -> 0 <= x < w2 -> same_pixel c data1 w1 (y0 + y) (x0 + x) data2 w2 y x) ->
    forall ci co by_ bx k, nth_error (fr_comps f2) ci = Some co ->
      0 <= by_ < blocks_high f2 co -> 0 <= bx < blocks_wide f2 co -> 0 <= k < 64 ->
      top f2 co (by_ + 1) <= h2 \/ y0 + h2 = h1 -> left f2 co (bx + 1) <= w2 \/ x0 + w2 = w1 ->
      exists v, coef j1 ci (by_ + y0 / (8 * step_y f1 co)) (bx + x0 / (8 * step_x f1 co)) k = Some v /\ coef j2 ci by_ bx k = Some v.
Proof.
  intros f1 f2 S A1 A2 Hm Hn HH HW HD HP.
  pose proof (frames_decoded _ _ _ _ _ _ _ A1) as J1. pose proof (frames_decoded _ _ _ _ _ _ _ A2) as J2. fold f1 in J1. fold f2 in J2.
  intros ci co by_ bx k Hc Hy Hx Hk EY EX.
  assert (FC : fr_comps f1 = fr_comps f2) by (unfold f1, f2; cbn [frame_for fr_comps]; destruct S as (_ & -> & _); reflexivity).
  assert (VM : vmax f1 = vmax f2) by (unfold vmax; now rewrite FC). assert (HM : hmax f1 = hmax f2) by (unfold hmax; now rewrite FC).
  assert (SY : step_y f1 co = step_y f2 co) by (unfold step_y; now rewrite VM). assert (SX : step_x f1 co = step_x f2 co) by (unfold step_x; now rewrite HM).
  pose proof (nth_error_In _ _ Hc) as Hi. destruct (steps_exact s2 (spec_color c) w2 h2 co Hi) as (Ph & Pv & Px & Py & Eh & Ev). fold f2 in Px, Py, Eh, Ev.
  assert (Vp : 0 < vmax f2) by (rewrite Ev; apply Z.mul_pos_pos; assumption). assert (Hp : 0 < hmax f2) by (rewrite Eh; apply Z.mul_pos_pos; assumption).
  destruct (HD co) as [DY DX]; [rewrite FC; exact Hi|]. rewrite SY in *. rewrite SX in *. clear HD.
  set (m := y0 / (8 * step_y f2 co)) in *. set (n := x0 / (8 * step_x f2 co)) in *.
  assert (Y0 : y0 = 8 * m * step_y f2 co /\ 0 <= m) by (exact (aligned y0 _ Hm Py DY)).
  assert (X0 : x0 = 8 * n * step_x f2 co /\ 0 <= n) by (exact (aligned x0 _ Hn Px DX)).
  clear DY DX. clearbody m n. destruct Y0 as [Y0 N1]. destruct X0 as [X0 N2].
  assert (BH : blocks_high f2 co + m <= blocks_high f1 co).
  { unfold blocks_high, comp_height. rewrite VM. change (fr_height f1) with h1. change (fr_height f2) with h2.
    rewrite <- cdiv_shift by lia. apply cdiv_mono; [lia|]. replace (m * 8) with (8 * m) by ring. rewrite <- cdiv_shift by exact Vp.
    apply cdiv_mono; [exact Vp|]. replace (h2 * co_v co + 8 * m * vmax f2) with ((y0 + h2) * co_v co) by (rewrite Y0, Ev; ring).
    apply Z.mul_le_mono_nonneg_r; lia. }
  assert (BW : blocks_wide f2 co + n <= blocks_wide f1 co).
  { unfold blocks_wide, comp_width. rewrite HM. change (fr_width f1) with w1. change (fr_width f2) with w2.
    rewrite <- cdiv_shift by lia. apply cdiv_mono; [lia|]. replace (n * 8) with (8 * n) by ring. rewrite <- cdiv_shift by exact Hp.
    apply cdiv_mono; [exact Hp|]. replace (w2 * co_h co + 8 * n * hmax f2) with ((x0 + w2) * co_h co) by (rewrite X0, Eh; ring).
    apply Z.mul_le_mono_nonneg_r; lia. }
  apply (blocks_same _ _ HF _ _ _ _ _ _ _ _ _ _ _ S A1 A2 ci co (by_ + m) (bx + n) by_ bx k); rewrite ?J1, ?J2.
  { rewrite FC. exact Hc. } { lia. } { lia. } { exact Hy. } { exact Hx. } { exact Hk. }
  pose proof (top_inside s2 (spec_color c) w2 h2 co by_ Hi ltac:(apply Hy)) as Ti. pose proof (left_inside s2 (spec_color c) w2 h2 co bx Hi ltac:(apply Hx)) as Li.
  fold f2 in Ti, Li.
  assert (TY : top f1 co (by_ + m) = y0 + top f2 co by_) by (unfold top; rewrite SY, Y0; ring).
  assert (LX : left f1 co (bx + n) = x0 + left f2 co bx) by (unfold left; rewrite SX, X0; ring).
  assert (T0 : 0 <= top f2 co by_) by (unfold top; apply Z.mul_nonneg_nonneg; lia).
  assert (L0 : 0 <= left f2 co bx) by (unfold left; apply Z.mul_nonneg_nonneg; lia).
  assert (T1 : top f2 co (by_ + 1) = top f2 co by_ + 8 * step_y f2 co) by (unfold top; ring).
  assert (L1 : left f2 co (bx + 1) = left f2 co bx + 8 * step_x f2 co) by (unfold left; ring).
  intros y x Hy8 Hx8. rewrite TY, LX, SY, SX.
  change (fr_height f1) with h1. change (fr_height f2) with h2. change (fr_width f1) with w1. change (fr_width f2) with w2.
  pose proof (within8 y (step_y f2 co) Hy8 Py) as Y. pose proof (within8 x (step_x f2 co) Hx8 Px) as X.
  assert (Q1 : Z.min (h1 - 1) (y0 + top f2 co by_ + y * step_y f2 co) = y0 + Z.min (h2 - 1) (top f2 co by_ + y * step_y f2 co)) by lia.
  assert (Q2 : Z.min (w1 - 1) (x0 + left f2 co bx + x * step_x f2 co) = x0 + Z.min (w2 - 1) (left f2 co bx + x * step_x f2 co)) by lia.
  rewrite Q1, Q2. apply HP; lia.
Qed.
(** Image 2 is the rectangle of image 1 that begins at (y0, x0), where blocks of all components begin (8-aligned for
    greyscale, 16-aligned for 4:2:0).  Its blocks have
    the coefficients that the large file has there, except those that reach beyond the rectangle at an edge that is not
    an edge of the large image. *)
Theorem C53_crop : forall P1 P2 q1 calls1 q2 calls2 c data1 w1 h1 data2 w2 h2 y0 x0,
  let s1 := settings_of q1 calls1 in let s2 := settings_of q2 calls2 in
  let f1 := frame_for s1 (spec_color c) w1 h1 in let f2 := frame_for s2 (spec_color c) w2 h2 in
  valid_call P1 q1 calls1 data1 w1 h1 c -> generated P1 q1 calls1 data1 w1 h1 c -> valid_call P2 q2 calls2 data2 w2 h2 c -> generated P2 q2 calls2 data2 w2 h2 c -> same_coding s1 s2 ->
  representable int_dct s1 (spec_color c) (spec_plane c data1 w1) w1 h1 ->
  representable int_dct s2 (spec_color c) (spec_plane c data2 w2) w2 h2 ->
  0 <= y0 -> 0 <= x0 -> y0 + h2 <= h1 -> x0 + w2 <= w1 ->
  (forall co, In co (fr_comps f1) -> y0 mod (8 * step_y f1 co) = 0 /\ x0 mod (8 * step_x f1 co) = 0) ->
  (forall y x, 0 <= y < h2 -> 0 <= x < w2 -> same_pixel c data1 w1 (y0 + y) (x0 + x) data2 w2 y x) ->
  exists b1 b2 j1 j2,
    exec (run_encode P1 q1 calls1 data1 w1 h1 c) = (b1, Ok tt) /\ decode b1 = Some j1 /\ j_frame j1 = f1 /\
    exec (run_encode P2 q2 calls2 data2 w2 h2 c) = (b2, Ok tt) /\ decode b2 = Some j2 /\ j_frame j2 = f2 /\
    forall ci co by_ bx k, nth_error (fr_comps f2) ci = Some co ->
      0 <= by_ < blocks_high f2 co -> 0 <= bx < blocks_wide f2 co -> 0 <= k < 64 ->
      top f2 co (by_ + 1) <= h2 \/ y0 + h2 = h1 -> left f2 co (bx + 1) <= w2 \/ x0 + w2 = w1 ->
      exists v, coef j1 ci (by_ + y0 / (8 * step_y f1 co)) (bx + x0 / (8 * step_x f1 co)) k = Some v /\ coef j2 ci by_ bx k = Some v.
Proof.
  intros P1 P2 q1 calls1 q2 calls2 c data1 w1 h1 data2 w2 h2 y0 x0 s1 s2 f1 f2 [C1 V1 F1] Gn1 [C2 V2 F2] Gn2 S R1 R2 Hm Hn HH HW HD HP.
  apply (C46_decodes_iff P1 q1 calls1 data1 w1 h1 c C1 V1 F1 Gn1) in R1. apply (C46_decodes_iff P2 q2 calls2 data2 w2 h2 c C2 V2 F2 Gn2) in R2.
  destruct R1 as (b1 & j1 & E1 & D1 & A1). destruct R2 as (b2 & j2 & E2 & D2 & A2).
  exists b1, b2, j1, j2. split; [exact E1|]. split; [exact D1|]. split; [apply A1|]. split; [exact E2|]. split; [exact D2|]. split; [apply A2|].
  exact (crop_core _ _ fdct_is_int_dct _ _ _ _ _ _ _ _ _ _ _ _ _ S A1 A2 Hm Hn HH HW HD HP).
Qed.
Theorem C53_crop_simd : forall P1 P2 q1 calls1 q2 calls2 c data1 w1 h1 data2 w2 h2 y0 x0,
  let s1 := settings_of q1 calls1 in let s2 := settings_of q2 calls2 in
  let f1 := frame_for s1 (spec_color c) w1 h1 in let f2 := frame_for s2 (spec_color c) w2 h2 in
  valid_call P1 q1 calls1 data1 w1 h1 c -> generated_simd P1 q1 calls1 data1 w1 h1 c -> valid_call P2 q2 calls2 data2 w2 h2 c -> generated_simd P2 q2 calls2 data2 w2 h2 c -> same_coding s1 s2 ->
  representable avx2_dct s1 (spec_color c) (spec_plane c data1 w1) w1 h1 ->
  representable avx2_dct s2 (spec_color c) (spec_plane c data2 w2) w2 h2 ->
  0 <= y0 -> 0 <= x0 -> y0 + h2 <= h1 -> x0 + w2 <= w1 ->
  (forall co, In co (fr_comps f1) -> y0 mod (8 * step_y f1 co) = 0 /\ x0 mod (8 * step_x f1 co) = 0) ->
  (forall y x, 0 <= y < h2 -> 0 <= x < w2 -> same_pixel c data1 w1 (y0 + y) (x0 + x) data2 w2 y x) ->
  exists b1 b2 j1 j2,
    exec (run_encode_avx2 P1 q1 calls1 data1 w1 h1 c) = (b1, Ok tt) /\ decode b1 = Some j1 /\ j_frame j1 = f1 /\
    exec (run_encode_avx2 P2 q2 calls2 data2 w2 h2 c) = (b2, Ok tt) /\ decode b2 = Some j2 /\ j_frame j2 = f2 /\
    forall ci co by_ bx k, nth_error (fr_comps f2) ci = Some co ->
      0 <= by_ < blocks_high f2 co -> 0 <= bx < blocks_wide f2 co -> 0 <= k < 64 ->
      top f2 co (by_ + 1) <= h2 \/ y0 + h2 = h1 -> left f2 co (bx + 1) <= w2 \/ x0 + w2 = w1 ->
      exists v, coef j1 ci (by_ + y0 / (8 * step_y f1 co)) (bx + x0 / (8 * step_x f1 co)) k = Some v /\ coef j2 ci by_ bx k = Some v.
Proof.
  intros P1 P2 q1 calls1 q2 calls2 c data1 w1 h1 data2 w2 h2 y0 x0 s1 s2 f1 f2 [C1 V1 F1] Gn1 [C2 V2 F2] Gn2 S R1 R2 Hm Hn HH HW HD HP.
  apply (C46_decodes_iff_simd P1 q1 calls1 data1 w1 h1 c C1 V1 F1 Gn1) in R1. apply (C46_decodes_iff_simd P2 q2 calls2 data2 w2 h2 c C2 V2 F2 Gn2) in R2.
  destruct R1 as (b1 & j1 & E1 & D1 & A1). destruct R2 as (b2 & j2 & E2 & D2 & A2).
  exists b1, b2, j1, j2. split; [exact E1|]. split; [exact D1|]. split; [apply A1|]. split; [exact E2|]. split; [exact D2|]. split; [apply A2|].
  exact (crop_core _ _ avx2_is_dct _ _ _ _ _ _ _ _ _ _ _ _ _ S A1 A2 Hm Hn HH HW HD HP).
Qed.

(** ** Concrete cases *)
(** 24 x 20 grey pixels, and the 10 x 12 of them that begin at (8, 8); one file baseline, the other progressive. *)
Definition big_at (y x : Z) : Z := (y * 37 + x * x * 11) mod 256.
Definition big_data : list Z := concat (map (fun y => map (fun x => big_at y x) (upto 24)) (upto 20)).
Definition part_data : list Z := concat (map (fun y => map (fun x => big_at (8 + y) (8 + x)) (upto 10)) (upto 12)).
Lemma bytes_by_check l : forallb (fun n => (0 <=? n) && (n <? 256)) l = true -> Forall is_u8 l.
Proof. intros E. apply Forall_forall. intros x Hx. rewrite forallb_forall in E. specialize (E x Hx). unfold is_u8. lia. Qed.
Lemma grey_fits s pl w h : forallb (fun i => quantizer s 0 i <=? 255) (upto 64) = true ->
  forallb (fun i => negb (quantizer s 1 i mod 256 =? 0)) (upto 64) = true -> scans_fit s -> s_optimize s = false ->
  representable int_dct s JLuma pl w h.
Proof.
  intros H0 H1 Hs Ho. split; [split|split].
  - intros c i Hc Hi. unfold comps_of in Hc. destruct (factors (s_sampling s)). destruct Hc as [<-|[]]. cbn [co_tq].
    pose proof (below64 (fun i => quantizer s 0 i <=? 255) H0 i Hi). cbv beta in *. lia.
  - intros i Hi. pose proof (below64 (fun i => negb (quantizer s 1 i mod 256 =? 0)) H1 i Hi). cbv beta in *. lia.
  - exact Hs.
  - rewrite Ho. discriminate.
Qed.
Example C53_case_hyps :
  valid_call debug64 60 [] big_data 24 20 Luma /\ valid_call release32 60 [CScans 4; CRestart 1] part_data 10 12 Luma /\
  same_coding (settings_of 60 []) (settings_of 60 [CScans 4; CRestart 1]) /\
  representable int_dct (settings_of 60 []) JLuma (spec_plane Luma big_data 24) 24 20 /\
  representable int_dct (settings_of 60 [CScans 4; CRestart 1]) JLuma (spec_plane Luma part_data 10) 10 12 /\
  forall y x, 0 <= y < 12 -> 0 <= x < 10 -> same_pixel Luma big_data 24 (8 + y) (8 + x) part_data 10 y x.
Proof.
  split; [|split; [|split; [|split; [|split]]]].
  - constructor; [constructor| |discriminate]. constructor; try (vm_compute; split; discriminate); [now right| |vm_compute; discriminate].
    apply bytes_by_check. vm_compute. reflexivity.
  - constructor; [repeat (constructor; [cbn; unfold is_u16; lia|]); constructor| |discriminate]. constructor; try (vm_compute; split; discriminate); [now left| |vm_compute; discriminate].
    apply bytes_by_check. vm_compute. reflexivity.
  - repeat split.
  - apply grey_fits; try reflexivity; vm_compute; reflexivity.
  - apply grey_fits; try reflexivity; try (vm_compute; reflexivity). vm_compute. discriminate.
  - intros y x Hy Hx k Hk. cbn [spec_bpp] in *. assert (k = 0) by lia. subst k.
    pose proof (zall (fun i => pixel_byte big_data 24 1 (8 + i / 10) (8 + i mod 10) 0 =? pixel_byte part_data 10 1 (i / 10) (i mod 10) 0) 0 120
      ltac:(vm_compute; reflexivity) (10 * y + x) ltac:(lia)) as E. cbv beta in E.
    replace ((10 * y + x) / 10) with y in E by (rewrite Z.mul_comm, Z.add_comm, Z.div_add, Z.div_small by lia; lia).
    replace ((10 * y + x) mod 10) with x in E by (rewrite Z.mul_comm, Z.add_comm, Z.mod_add, Z.mod_small by lia; lia). lia.
Qed.
(** The theorem's conclusion for the blocks of the left column ([8 <= 10], and the part ends where the image ends). *)
Example C53_case : exists b1 b2 j1 j2,
  exec (run_encode debug64 60 [] big_data 24 20 Luma) = (b1, Ok tt) /\ decode b1 = Some j1 /\
  exec (run_encode release32 60 [CScans 4; CRestart 1] part_data 10 12 Luma) = (b2, Ok tt) /\ decode b2 = Some j2 /\
  forall by_ k, 0 <= by_ < 2 -> 0 <= k < 64 -> exists v, coef j1 0 (by_ + 1) 1 k = Some v /\ coef j2 0 by_ 0 k = Some v.
Proof.
  destruct C53_case_hyps as (V1 & V2 & S & R1 & R2 & HP).
  destruct (C53_crop debug64 release32 60 [] 60 [CScans 4; CRestart 1] Luma big_data 24 20 part_data 10 12 8 8 V1 ltac:(discriminate) V2 ltac:(discriminate) S R1 R2
    ltac:(lia) ltac:(lia) ltac:(vm_compute; discriminate) ltac:(vm_compute; discriminate)
    ltac:(intros co [<-|[]]; split; reflexivity) HP) as (b1 & b2 & j1 & j2 & E1 & D1 & _ & E2 & D2 & _ & H).
  exists b1, b2, j1, j2. split; [exact E1|]. split; [exact D1|]. split; [exact E2|]. split; [exact D2|]. intros by_ k Hy Hk.
  apply (H 0%nat {| co_id := 0; co_h := 1; co_v := 1; co_tq := 0 |} by_ 0 k eq_refl); [exact Hy|split; reflexivity|exact Hk|right; reflexivity|left; vm_compute; discriminate].
Qed.
(** The block at the right edge of the part is different: its last columns repeat the last column of the part, where the
    large image goes on. *)
Example C53_case_edge : exists b1 b2 j1 j2,
  exec (run_encode debug64 60 [] big_data 24 20 Luma) = (b1, Ok tt) /\ decode b1 = Some j1 /\
  exec (run_encode release32 60 [CScans 4; CRestart 1] part_data 10 12 Luma) = (b2, Ok tt) /\ decode b2 = Some j2 /\
  coef j1 0 1 2 1 <> coef j2 0 0 1 1.
Proof.
  eexists _, _, _, _. split; [vm_compute; reflexivity|]. split; [vm_compute; reflexivity|]. split; [vm_compute; reflexivity|]. split; [vm_compute; reflexivity|].
  vm_compute. discriminate.
Qed.
