(** The SIMD colour conversion appends what the scalar one appends, and touches no memory outside the slice
    and the vectors. *)
From Verif Require Export PRoom PPixel MAvx2.
From Coq Require Import ZifyBool ZifyNat.

Lemma wrap_s32 x : -2147483648 <= x < 2147483648 -> wrap_s 32 x = x.
Proof. intros H. unfold wrap_s. change (2 ^ (32 - 1)) with 2147483648. change (2 ^ 32) with 4294967296. rewrite Z.mod_small by lia. lia. Qed.

Definition y_lane (r g b : Z) : Z :=
  wrap_u 8 (wrap_s 32 (wrap_s 32 (wrap_s 32 (wrap_s 32 (wrap_s 32 (19595 * r) + wrap_s 32 (38470 * g)) + wrap_s 32 (7471 * b)) + 0x7FFF)
                       mod 2 ^ 32 / 2 ^ 16)).
Definition cb_lane (r g b : Z) : Z :=
  wrap_u 8 (wrap_s 32 (wrap_s 32 (wrap_s 32 (wrap_s 32 (wrap_s 32 (wrap_s 32 (-11059 * r) - wrap_s 32 (21709 * g)) + wrap_s 32 (32768 * b)) + 128 * 2 ^ 16) + 0x7FFF)
                       mod 2 ^ 32 / 2 ^ 16)).
Definition cr_lane (r g b : Z) : Z :=
  wrap_u 8 (wrap_s 32 (wrap_s 32 (wrap_s 32 (wrap_s 32 (wrap_s 32 (wrap_s 32 (32768 * r) - wrap_s 32 (27439 * g)) - wrap_s 32 (5329 * b)) + 128 * 2 ^ 16) + 0x7FFF)
                       mod 2 ^ 32 / 2 ^ 16)).

Lemma finish x : 0 <= x < 16777216 -> wrap_u 8 (wrap_s 32 (x mod 2 ^ 32 / 2 ^ 16)) = x / 65536.
Proof.
  intros H. change (2 ^ 32) with 4294967296. change (2 ^ 16) with 65536. rewrite (Z.mod_small x) by lia.
  assert (0 <= x / 65536 < 256) by (split; [apply Z.div_pos; lia|apply Z.div_lt_upper_bound; lia]).
  rewrite wrap_s32 by lia. unfold wrap_u. change (2 ^ 8) with 256. apply Z.mod_small. lia.
Qed.
Lemma y_lane_ok r g b : 0 <= r <= 255 -> 0 <= g <= 255 -> 0 <= b <= 255 -> y_lane r g b = spec_y r g b.
Proof.
  intros. unfold y_lane. rewrite (wrap_s32 (19595 * r)), (wrap_s32 (38470 * g)), (wrap_s32 (7471 * b)) by lia.
  rewrite (wrap_s32 (19595 * r + _)) by lia. rewrite (wrap_s32 (_ + _ + 7471 * b)) by lia.
  change 0x7FFF with 32767. rewrite (wrap_s32 (_ + 32767)) by lia. rewrite finish by lia. reflexivity.
Qed.
Lemma cb_lane_ok r g b : 0 <= r <= 255 -> 0 <= g <= 255 -> 0 <= b <= 255 -> cb_lane r g b = spec_cb r g b.
Proof.
  intros. unfold cb_lane. rewrite (wrap_s32 (-11059 * r)), (wrap_s32 (21709 * g)), (wrap_s32 (32768 * b)) by lia.
  rewrite (wrap_s32 (-11059 * r - _)) by lia. rewrite (wrap_s32 (_ - _ + 32768 * b)) by lia.
  change (128 * 2 ^ 16) with 8388608. change 0x7FFF with 32767. rewrite (wrap_s32 (_ + 8388608)) by lia.
  rewrite (wrap_s32 (_ + 32767)) by lia. rewrite finish by lia. reflexivity.
Qed.
Lemma cr_lane_ok r g b : 0 <= r <= 255 -> 0 <= g <= 255 -> 0 <= b <= 255 -> cr_lane r g b = spec_cr r g b.
Proof.
  intros. unfold cr_lane. rewrite (wrap_s32 (32768 * r)), (wrap_s32 (27439 * g)), (wrap_s32 (5329 * b)) by lia.
  rewrite (wrap_s32 (32768 * r - _)) by lia. rewrite (wrap_s32 (_ - _ - 5329 * b)) by lia.
  change (128 * 2 ^ 16) with 8388608. change 0x7FFF with 32767. rewrite (wrap_s32 (_ + 8388608)) by lia.
  rewrite (wrap_s32 (_ + 32767)) by lia. rewrite finish by lia. reflexivity.
Qed.

Lemma eight {A} (f : Z -> A) : map f (zrange 8) = [f 0; f 1; f 2; f 3; f 4; f 5; f 6; f 7]. Proof. reflexivity. Qed.
(** the lanes of the loop body, for eight pixels *)
Section Lanes.
  Variables R G B : Z -> Z.
  Local Ltac lanes := rewrite !eight; unfold y_lane, cb_lane, cr_lane, y_lanes, cb_lanes, cr_lanes, add32, sub32, mullo32, srli32, set1_32, set32, map2;
    cbn [rev app repeat combine map]; reflexivity.
  Lemma y_lanes_ok : map (wrap_u 8) (rev (y_lanes (set32 (map R (zrange 8))) (set32 (map G (zrange 8))) (set32 (map B (zrange 8)))))
    = map (fun k => y_lane (R k) (G k) (B k)) (zrange 8).
  Proof. lanes. Qed.
  Lemma cb_lanes_ok : map (wrap_u 8) (rev (cb_lanes (set32 (map R (zrange 8))) (set32 (map G (zrange 8))) (set32 (map B (zrange 8)))))
    = map (fun k => cb_lane (R k) (G k) (B k)) (zrange 8).
  Proof. lanes. Qed.
  Lemma cr_lanes_ok : map (wrap_u 8) (rev (cr_lanes (set32 (map R (zrange 8))) (set32 (map G (zrange 8))) (set32 (map B (zrange 8)))))
    = map (fun k => cr_lane (R k) (G k) (B k)) (zrange 8).
  Proof. lanes. Qed.
End Lanes.

Lemma mapM_ret {A B} (f : A -> prog B) (g : A -> B) l : (forall a, In a l -> f a = Ret (g a)) -> mapM f l = Ret (map g l).
Proof.
  induction l as [|a l IH]; intros H; [reflexivity|]. cbn [mapM map]. rewrite H by now left. cbn [bind].
  rewrite IH by (intros; apply H; now right). reflexivity.
Qed.

Lemma foldM_zrange {A} (f : A -> Z -> prog A) (S : Z -> A) n : 0 <= n ->
  (forall k x, 0 <= k < n -> f (S k) x = Ret (S (k + 1))) -> foldM f (zrange n) (S 0) = Ret (S n).
Proof.
  intros Hn H.
  assert (G : forall l k, 0 <= k -> k + Z.of_nat (length l) <= n -> foldM f l (S k) = Ret (S (k + Z.of_nat (length l)))).
  { induction l as [|x l IH]; intros k Hk Hkn; cbn [foldM length] in *; [now rewrite Z.add_0_r|].
    rewrite H by lia. cbn [bind]. rewrite IH by lia. f_equal. f_equal. lia. }
  rewrite G by (rewrite ?zrange_length; lia). rewrite zrange_length. f_equal. f_equal. lia.
Qed.

Section Fill.
  Variable P : platform.
  Variable HP : plat_ok P.
  Variable data : list Z.
  Variables w h nc o1 o2 o3 : Z.
  Variable Hw : 1 <= w <= 65535.
  Variable Hh : 1 <= h <= 65535.
  Variable Hnc : 3 <= nc <= 4.
  Variable Ho1 : 0 <= o1 <= 2.
  Variable Ho2 : 0 <= o2 <= 2.
  Variable Ho3 : 0 <= o3 <= 2.
  Variable Hd : Forall (fun b => 0 <= b < 256) data.
  Variable Hl : w * h * nc <= zlen data.
  Variable Hf : zlen data < 2 ^ (ubits P - 1).
  Variable y : Z.
  Variable Hy : 0 <= y < h.
  Let R x := pixel_byte data w nc y x o1.
  Let G x := pixel_byte data w nc y x o2.
  Let B x := pixel_byte data w nc y x o3.

  Lemma byte_at k x : 0 <= k <= 2 -> 0 <= x < w -> read_ptr data (y * w * nc + x * nc + k) = Ret (pixel_byte data w nc y x k).
  Proof.
    intros Hk Hx. unfold read_ptr. assert (y * w + x <= h * w - 1) by nia.
    assert ((y * w + x) * nc <= (h * w - 1) * nc) by nia.
    replace ((0 <=? y * w * nc + x * nc + k) && (y * w * nc + x * nc + k <? zlen data)) with true by nia.
    unfold zn, pixel_byte. do 3 f_equal. lia.
  Qed.
  Lemma load_at k x : 0 <= k <= 2 -> 0 <= x -> x + 8 <= w ->
    load3 data nc (y * w * nc + x * nc + k) = Ret (set32 (map (fun j => pixel_byte data w nc y (x + j) k) (zrange 8))).
  Proof.
    intros Hk Hx Hx8. unfold load3. rewrite (mapM_ret _ (fun j => pixel_byte data w nc y (x + j) k)); [reflexivity|].
    intros j Hj. apply in_zrange in Hj. rewrite <- byte_at by lia. f_equal. lia.
  Qed.

  Lemma px_range x k : 0 <= pixel_byte data w nc y x k <= 255.
  Proof.
    unfold pixel_byte. generalize (Z.to_nat ((y * w + x) * nc + k)). intros i.
    destruct (lt_dec i (length data)) as [L|L].
    - rewrite Forall_forall in Hd. pose proof (Hd _ (nth_In data 0 L)). lia.
    - rewrite nth_overflow by lia. lia.
  Qed.

  Lemma map_range8 {A} (f : Z -> A) k : 0 <= k -> map f (zrange (8 * (k + 1))) = map f (zrange (8 * k)) ++ map (fun j => f (8 * k + j)) (zrange 8).
  Proof. intros Hk. replace (8 * (k + 1)) with (8 * k + 8) by lia. rewrite zrange_app, map_app, map_map by lia. reflexivity. Qed.
  Lemma map_range1 {A} (f : Z -> A) k : 0 <= k -> map f (zrange (k + 1)) = map f (zrange k) ++ [f k].
  Proof. intros Hk. rewrite zrange_succ, map_app by lia. reflexivity. Qed.

  Theorem fill_avx2_ok cap b0 b1 b2 b3 : zlen b0 + w <= cap -> zlen b1 + w <= cap -> zlen b2 + w <= cap ->
    fill_buffers_avx2 P nc o1 o2 o3 data w cap y [b0; b1; b2; b3]
    = Ret [b0 ++ map (fun x => spec_y (R x) (G x) (B x)) (zrange w);
           b1 ++ map (fun x => spec_cb (R x) (G x) (B x)) (zrange w);
           b2 ++ map (fun x => spec_cr (R x) (G x) (B x)) (zrange w); b3].
  Proof.
    intros H0 H1 H2. unfold fill_buffers_avx2.
    replace ((cap <? zlen b0 + w) || (cap <? zlen b1 + w) || (cap <? zlen b2 + w)) with false by lia.
    assert (Hyw : 0 <= y * w /\ y * w * nc <= zlen data) by nia.
    assert (Hs : forall z, 0 <= z < 2 ^ (ubits P - 1) -> ck_s P (ubits P) z = Ret z).
    { intros z Hz. unfold ck_s. replace ((- 2 ^ (ubits P - 1) <=? z) && (z <? 2 ^ (ubits P - 1))) with true by lia. reflexivity. }
    rewrite (Hs (y * w)) by nia. cbn [bind]. rewrite (Hs (y * w * nc)) by nia. cbn [bind].
    set (Y x := spec_y (R x) (G x) (B x)). set (Cb x := spec_cb (R x) (G x) (B x)). set (Cr x := spec_cr (R x) (G x) (B x)).
    set (n8 := w / 8).
    assert (Hn8 : 0 <= n8 /\ 8 * n8 <= w /\ w = 8 * n8 + w mod 8 /\ 0 <= w mod 8 < 8).
    { unfold n8. pose proof (Z.div_mod w 8 ltac:(lia)). pose proof (Z.mod_pos_bound w 8 ltac:(lia)). lia. }
    set (S1 := fun k => (y * w * nc + 8 * k * nc, b0 ++ map Y (zrange (8 * k)), b1 ++ map Cb (zrange (8 * k)), b2 ++ map Cr (zrange (8 * k)))).
    replace (y * w * nc, b0, b1, b2) with (S1 0).
    2:{ unfold S1. cbn [Z.mul]. change (zrange 0) with (@nil Z). cbn [map]. rewrite !app_nil_r. f_equal. f_equal. f_equal. lia. }
    rewrite (foldM_zrange _ S1 n8).
    2: lia.
    2:{ intros k x Hk. unfold S1 at 1. cbv beta iota.
      rewrite !load_at by lia. cbn [bind]. unfold S1.
      rewrite y_lanes_ok, cb_lanes_ok, cr_lanes_ok.
      rewrite !map_range8, <- !app_assoc by lia. f_equal.
      apply f_equal2; [apply f_equal2; [apply f_equal2; [lia|]|]|]; f_equal; f_equal;
        apply map_ext; intros j; [apply y_lane_ok|apply cb_lane_ok|apply cr_lane_ok]; apply px_range. }
    cbn [bind]. unfold S1. cbv beta iota.
    set (S2 := fun k => (y * w * nc + (8 * n8 + k) * nc, b0 ++ map Y (zrange (8 * n8 + k)), b1 ++ map Cb (zrange (8 * n8 + k)), b2 ++ map Cr (zrange (8 * n8 + k)))).
    replace (y * w * nc + 8 * n8 * nc, b0 ++ map Y (zrange (8 * n8)), b1 ++ map Cb (zrange (8 * n8)), b2 ++ map Cr (zrange (8 * n8))) with (S2 0).
    2:{ unfold S2. rewrite !Z.add_0_r. reflexivity. }
    rewrite (foldM_zrange _ S2 (w mod 8)).
    2: lia.
    2:{ intros k x Hk. unfold S2 at 1. cbv beta iota.
      rewrite !byte_at by lia. cbn [bind]. rewrite rgb_to_ycbcr_spec by apply px_range. cbv beta iota.
      unfold S2. rewrite (Z.add_assoc (8 * n8) k 1), !map_range1, <- !app_assoc by lia. f_equal.
      apply f_equal2; [apply f_equal2; [apply f_equal2; [lia|]|]|]; reflexivity. }
    cbn [bind]. unfold S2. cbv beta iota. replace (8 * n8 + w mod 8) with w by lia. reflexivity.
  Qed.
End Fill.

(** In order, the SIMD image appends what the scalar one does. *)
Theorem image_avx2_fill P data w h c cap y bs : valid_input P data w h c ->
  call_in_order cap (image_of P data w h c) y bs ->
  exec (im_fill (image_of_avx2 P cap data w h c) y bs) = exec (im_fill (image_of P data w h c) y bs).
Proof.
  intros V (Hy & Hb & Hr). pose proof (valid_image _ _ _ _ _ V) as Him.
  destruct c; try reflexivity.
  all: rewrite (io_fill _ _ Him y bs Hy Hb).
  all: rewrite image_of_height in Hy; rewrite image_of_width in Hr |- *; rewrite image_of_color in Hr |- *.
  all: cbn [image_of_avx2 ycbcr_image_avx2 im_fill spec_color num_components].
  all: destruct bs as [|b0 [|b1 [|b2 [|b3 [|]]]]]; try discriminate Hb.
  all: pose proof (Hr 0%nat ltac:(cbn; lia)) as R0; pose proof (Hr 1%nat ltac:(cbn; lia)) as R1; pose proof (Hr 2%nat ltac:(cbn; lia)) as R2; cbn [nth] in R0, R1, R2.
  all: pose proof (vi_enough _ _ _ _ _ V) as He; cbn [spec_bpp] in He.
  all: pose proof (vi_width _ _ _ _ _ V); pose proof (vi_height _ _ _ _ _ V); pose proof (vi_platform _ _ _ _ _ V);
    pose proof (vi_slice _ _ _ _ _ V); pose proof (vi_bytes _ _ _ _ _ V).
  all: rewrite (fill_avx2_ok P data w h) by (assumption || (unfold zlen; lia) || lia).
  all: reflexivity.
Qed.
