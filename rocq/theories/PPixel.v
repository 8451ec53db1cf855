(** The built-in image buffers present the planes of SImage.v. *)
From Verif Require Export SImage Spec PImage.
From Coq Require Import ZifyBool ZifyNat.
Local Ltac Zify.zify_post_hook ::= Z.div_mod_to_equations.

Lemma push_pixels_spec m px : (m <= 4)%nat -> Forall (fun p => length p = m) px -> forall bs, length bs = 4%nat ->
  push_pixels bs px =
  map (fun '(i, b) => if (i <? m)%nat then b ++ map (fun p => nth i p 0) px else b)
      (combine (seq 0 (length bs)) bs).
Proof.
  intros Hm Hpx. induction Hpx as [|p px Hp Hpx IH]; intros bs Hbs;
    destruct bs as [|b0 [|b1 [|b2 [|b3 [|]]]]]; try discriminate Hbs.
  - cbn. destruct m as [|[|[|[|m]]]]; cbn; now rewrite ?app_nil_r.
  - cbn [push_pixels fold_left]. fold (push_pixels (push_pixel [b0; b1; b2; b3] p) px).
    destruct m as [|[|[|[|[|m]]]]]; try lia;
      destruct p as [|p0 [|p1 [|p2 [|p3 [|]]]]]; try discriminate Hp;
      cbn [push_pixel]; rewrite IH by reflexivity; cbn; now rewrite <- ?app_assoc.
Qed.

Lemma firstn_skipn_nth {A} (l : list A) d a n k : (k < n)%nat -> (a + k < length l)%nat ->
  nth k (firstn n (skipn a l)) d = nth (a + k) l d.
Proof.
  intros Hk Hl. revert l n k Hk Hl. induction a as [|a IH]; intros l n k Hk Hl.
  - cbn [skipn Nat.add] in *. revert n k Hk Hl. induction l as [|x l IH]; intros n k Hk Hl; [cbn in Hl; lia|].
    destruct n; [lia|]. destruct k; [reflexivity|]. cbn. apply IH; [lia|cbn in Hl; lia].
  - destruct l as [|x l]; [cbn in Hl; lia|]. cbn [skipn Nat.add nth]. apply IH; [lia|cbn in Hl; lia].
Qed.

Section Fill.
  Variable P : platform.
  Variable data : list Z.
  Variables w h bpp : Z.
  Variable Hw : 1 <= w <= 65535.
  Variable Hh : 1 <= h <= 65535.
  Variable Hb : bpp = 1 \/ bpp = 3 \/ bpp = 4.
  Variable Hlen : w * h * bpp <= zlen data.
  Variable Hfit : zlen data < 2 ^ (ubits P - 1).


  Definition row_of (y : Z) : list Z := slice data (y * w * bpp) (y * w * bpp + w * bpp).

  Lemma row_bounds y : 0 <= y < h -> 0 <= y * w /\ 0 <= y * w * bpp /\ y * w * bpp + w * bpp <= zlen data.
  Proof.
    intros Hy. assert (0 <= y * w) by nia. split; [assumption|]. split; [nia|].
    assert ((y + 1) * w <= h * w) by (apply Z.mul_le_mono_nonneg_r; lia). nia.
  Qed.

  Lemma get_line_ret y : 0 <= y < h -> get_line P data y w bpp = Ret (row_of y).
  Proof.
    intros Hy. destruct (row_bounds y Hy) as (H1 & H2 & H3).
    assert (Hp : 2 ^ (ubits P - 1) <= 2 ^ ubits P) by (apply Z.pow_le_mono_r; lia).
    unfold get_line, ck_usize. rewrite ck_u_ret by nia. cbn [bind]. rewrite ck_u_ret by nia. cbn [bind].
    rewrite ck_u_ret by nia. cbn [bind]. rewrite ck_u_ret by nia. cbn [bind].
    replace ((y * w * bpp <=? y * w * bpp + w * bpp) && (y * w * bpp + w * bpp <=? zlen data)) with true by nia.
    reflexivity.
  Qed.

  Lemma row_length y : 0 <= y < h -> length (row_of y) = Z.to_nat (w * bpp).
  Proof.
    intros Hy. destruct (row_bounds y Hy) as (H1 & H2 & H3). unfold row_of, slice.
    rewrite firstn_length, skipn_length. unfold zlen in H3. nia.
  Qed.

  Lemma row_nth y k : 0 <= y < h -> 0 <= k < w * bpp -> nth (Z.to_nat k) (row_of y) 0 = nth (Z.to_nat (y * w * bpp + k)) data 0.
  Proof.
    intros Hy Hk. destruct (row_bounds y Hy) as (H1 & H2 & H3). unfold row_of, slice. unfold zlen in H3.
    rewrite firstn_skipn_nth by lia. f_equal. lia.
  Qed.

  (** Row [y] as a list of pixels. *)
  Definition pixels (y : Z) : list (list Z) :=
    map (fun x => map (fun k => pixel_byte data w bpp y x k) (zrange bpp)) (zrange w).

  Lemma zn_pixel y x k : 0 <= k < bpp ->
    zn (map (fun k => pixel_byte data w bpp y x k) (zrange bpp)) k = pixel_byte data w bpp y x k.
  Proof.
    intros Hk. unfold zn.
    rewrite (nth_indep _ 0 (pixel_byte data w bpp y x 0)) by (rewrite map_length, zrange_length; lia).
    rewrite (map_nth (fun k => pixel_byte data w bpp y x k)). f_equal.
    unfold zrange. rewrite (map_nth Z.of_nat (seq 0 (Z.to_nat bpp)) 0%nat), seq_nth by lia. lia.
  Qed.

  Lemma chunks_row y : 0 <= y < h -> chunks_exact (Z.to_nat bpp) (row_of y) = pixels y.
  Proof.
    intros Hy. unfold chunks_exact, pixels. rewrite row_length by assumption.
    replace (Z.to_nat (w * bpp) / Z.to_nat bpp)%nat with (Z.to_nat w).
    2:{ rewrite Z2Nat.inj_mul by lia. rewrite Nat.div_mul by lia. reflexivity. }
    unfold zrange at 2. rewrite map_map. apply map_ext_in. intros i Hi. apply in_seq in Hi.
    apply (nth_ext _ _ 0 0).
    - rewrite map_length, zrange_length, firstn_length, skipn_length, row_length by assumption. nia.
    - intros k Hk. rewrite firstn_length, skipn_length, row_length in Hk by assumption.
      assert (Hk' : (k < Z.to_nat bpp)%nat) by nia.
      rewrite firstn_skipn_nth; [|exact Hk'|rewrite row_length by assumption; nia].
      transitivity (pixel_byte data w bpp y (Z.of_nat i) (Z.of_nat k)).
      2:{ rewrite <- (zn_pixel y (Z.of_nat i) (Z.of_nat k)) by lia. unfold zn. now rewrite Nat2Z.id. }
      unfold pixel_byte. replace (i * Z.to_nat bpp + k)%nat with (Z.to_nat (Z.of_nat i * bpp + Z.of_nat k)) by nia.
      rewrite row_nth by nia. f_equal. nia.
  Qed.

  Lemma fill_pixels pl m (f : list Z -> list Z) y bs : (m <= 4)%nat -> 0 <= y < h -> length bs = 4%nat ->
    (forall p, length (f p) = m) ->
    (forall x i, 0 <= x < w -> (i < m)%nat ->
       nth i (f (map (fun k => pixel_byte data w bpp y x k) (zrange bpp))) 0 = pl i y x) ->
    exec (let* line := get_line P data y w bpp in
          Ret (push_pixels bs (map f (chunks_exact (Z.to_nat bpp) line))))
    = ([], Ok (append_row m pl w y bs)).
  Proof.
    intros Hm Hy Hbs Hf Hpl. rewrite get_line_ret by assumption. cbn [bind exec].
    rewrite chunks_row by assumption. do 2 f_equal. rewrite (push_pixels_spec m) by
      (try assumption; apply Forall_forall; intros p Hp; apply in_map_iff in Hp as (q & <- & _); apply Hf).
    unfold append_row. apply map_ext. intros [i b]. destruct (i <? m)%nat eqn:E; [|reflexivity].
    f_equal. unfold pixels. rewrite !map_map. apply map_ext_in. intros x Hx. apply in_zrange in Hx.
    apply Hpl; lia.
  Qed.
End Fill.

Lemma byte_range data k : Forall (fun b => 0 <= b < 256) data -> 0 <= nth k data 0 <= 255.
Proof.
  intros H. destruct (Nat.lt_ge_cases k (length data)) as [Hk|Hk].
  - rewrite Forall_forall in H. specialize (H (nth k data 0) (nth_In _ _ Hk)). lia.
  - rewrite nth_overflow by assumption. lia.
Qed.

Lemma ycc_range r g b i : 0 <= r <= 255 -> 0 <= g <= 255 -> 0 <= b <= 255 -> 0 <= spec_ycc i r g b <= 255.
Proof. intros. destruct i as [|[|]]; cbn; unfold spec_y, spec_cb, spec_cr; lia. Qed.

Lemma rgb_to_ycbcr_spec r g b : 0 <= r <= 255 -> 0 <= g <= 255 -> 0 <= b <= 255 ->
  rgb_to_ycbcr r g b = (spec_y r g b, spec_cb r g b, spec_cr r g b).
Proof.
  intros Hr Hg Hb. unfold rgb_to_ycbcr. cbv zeta. change (2 ^ 16) with 65536. change (128 * 65536) with 8388608. change 0x7FFF with 32767.
  pose proof (ycc_range r g b 0 Hr Hg Hb) as H0. pose proof (ycc_range r g b 1 Hr Hg Hb) as H1. pose proof (ycc_range r g b 2 Hr Hg Hb) as H2.
  cbn [spec_ycc] in *. unfold spec_y, spec_cb, spec_cr in *.
  rewrite !wrap_u_id by (change (2 ^ 8) with 256; lia). reflexivity.
Qed.

Lemma image_of_color P data w h c : im_color (image_of P data w h c) = spec_color c.
Proof. now destruct c. Qed.
Lemma image_of_width P data w h c : im_width (image_of P data w h c) = w.
Proof. now destruct c. Qed.
Lemma image_of_height P data w h c : im_height (image_of P data w h c) = h.
Proof. now destruct c. Qed.
Lemma spec_bpp_eq c : bytes_per_pixel c = spec_bpp c.
Proof. now destruct c. Qed.

Lemma image_of_ok P data w h c : plat_ok P -> 1 <= w <= 65535 -> 1 <= h <= 65535 ->
  Forall (fun b => 0 <= b < 256) data -> w * h * spec_bpp c <= zlen data -> zlen data < 2 ^ (ubits P - 1) ->
  image_ok (image_of P data w h c) (spec_plane c data w).
Proof.
  intros HP Hw Hh Hd Hl Hf. constructor.
  - now rewrite image_of_width.
  - now rewrite image_of_height.
  - intros i y x Hi Hy Hx.
    assert (B : forall bpp k, 0 <= pixel_byte data w bpp y x k <= 255) by (intros; now apply byte_range).
    unfold spec_plane. cbv zeta. destruct c; try (apply ycc_range; apply B); try apply B.
    + specialize (B (spec_bpp Cmyk) (Z.of_nat i)). lia.
    + destruct (i <? 3)%nat; [apply ycc_range; apply B|]. specialize (B (spec_bpp CmykAsYcck) 3). lia.
  - intros y bs Hy Hbs. rewrite image_of_height in Hy. rewrite image_of_color, image_of_width.
    assert (B : forall bpp x k, 0 <= pixel_byte data w bpp y x k <= 255) by (intros; now apply byte_range).
    assert (FP := fun bpp Hb Hl' => fill_pixels P data w h bpp Hw Hh Hb Hl' Hf (spec_plane c data w)).
    destruct c; cbn [image_of im_fill spec_color num_components] in *;
      unfold gray_image, rgb_image, rgba_image, bgr_image, bgra_image, ycbcr_image, ycc_image, cmyk_image,
        cmyk_as_ycck_image, ycck_image; cbn [im_fill].
    + (* Luma *)
      pose proof (FP 1 ltac:(lia) ltac:(cbn in Hl; lia) 1%nat (fun p => [zn p 0]) y bs ltac:(lia) Hy Hbs
                    ltac:(reflexivity)) as G.
      change (Z.to_nat 1) with 1%nat. rewrite <- G.
      * rewrite (get_line_ret P data w h 1) by (try assumption; try lia; cbn in Hl; lia). cbn [bind exec].
        do 3 f_equal. unfold chunks_exact. cbn [Z.to_nat Pos.to_nat Pos.iter_op Nat.mul].
        change (Z.to_nat 1) with 1%nat. rewrite Nat.div_1_r.
        generalize (row_of data w 1 y). intros l. rewrite map_map.
        apply (nth_ext _ _ [] []); [now rewrite !map_length, seq_length|].
        intros k Hk. rewrite map_length in Hk.
        rewrite (nth_indep _ [] [0]) by (rewrite map_length; exact Hk). rewrite (map_nth (fun p => [p])).
        rewrite (nth_indep _ [] [zn (firstn 1 (skipn (0 * 1) l)) 0]) by (rewrite map_length, seq_length; exact Hk).
        rewrite (map_nth (fun x => [zn (firstn 1 (skipn (x * 1) l)) 0])). rewrite seq_nth by exact Hk.
        unfold zn. change (Z.to_nat 0) with 0%nat. rewrite firstn_skipn_nth by lia. do 2 f_equal. lia.
      * intros x i Hx Hi. destruct i as [|i]; [|lia]. cbn [nth].
        rewrite zn_pixel by (lia || assumption). reflexivity.
    + apply (FP 3 ltac:(lia) Hl); try assumption; try lia.
      { intros p. destruct (rgb_to_ycbcr (zn p 0) (zn p 1) (zn p 2)) as [[? ?] ?]. reflexivity. }
      intros x i Hx Hi. rewrite !zn_pixel by (try assumption; lia). rewrite rgb_to_ycbcr_spec by apply B.
      destruct i as [|[|[|]]]; try lia; reflexivity.
    + apply (FP 4 ltac:(lia) Hl); try assumption; try lia.
      { intros p. destruct (rgb_to_ycbcr (zn p 0) (zn p 1) (zn p 2)) as [[? ?] ?]. reflexivity. }
      intros x i Hx Hi. rewrite !zn_pixel by (try assumption; lia). rewrite rgb_to_ycbcr_spec by apply B.
      destruct i as [|[|[|]]]; try lia; reflexivity.
    + apply (FP 3 ltac:(lia) Hl); try assumption; try lia.
      { intros p. destruct (rgb_to_ycbcr (zn p 2) (zn p 1) (zn p 0)) as [[? ?] ?]. reflexivity. }
      intros x i Hx Hi. rewrite !zn_pixel by (try assumption; lia). rewrite rgb_to_ycbcr_spec by apply B.
      destruct i as [|[|[|]]]; try lia; reflexivity.
    + apply (FP 4 ltac:(lia) Hl); try assumption; try lia.
      { intros p. destruct (rgb_to_ycbcr (zn p 2) (zn p 1) (zn p 0)) as [[? ?] ?]. reflexivity. }
      intros x i Hx Hi. rewrite !zn_pixel by (try assumption; lia). rewrite rgb_to_ycbcr_spec by apply B.
      destruct i as [|[|[|]]]; try lia; reflexivity.
    + apply (FP 3 ltac:(lia) Hl); try assumption; try lia.
      { reflexivity. }
      intros x i Hx Hi. rewrite !zn_pixel by (try assumption; lia).
      destruct i as [|[|[|]]]; try lia; reflexivity.
    + apply (FP 4 ltac:(lia) Hl); try assumption; try lia.
      { reflexivity. }
      intros x i Hx Hi. rewrite !zn_pixel by (try assumption; lia).
      destruct i as [|[|[|[|]]]]; try lia; reflexivity.
    + apply (FP 4 ltac:(lia) Hl); try assumption; try lia.
      { intros p. unfold cmyk_to_ycck. destruct (rgb_to_ycbcr (zn p 0) (zn p 1) (zn p 2)) as [[? ?] ?]. reflexivity. }
      intros x i Hx Hi. rewrite !zn_pixel by (try assumption; lia). unfold cmyk_to_ycck. rewrite rgb_to_ycbcr_spec by apply B.
      destruct i as [|[|[|[|]]]]; try lia; reflexivity.
    + apply (FP 4 ltac:(lia) Hl); try assumption; try lia.
      { reflexivity. }
      intros x i Hx Hi. rewrite !zn_pixel by (try assumption; lia).
      destruct i as [|[|[|[|]]]]; try lia; reflexivity.
Qed.
