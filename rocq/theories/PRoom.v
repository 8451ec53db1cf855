(** The encoder calls fill_buffers only for existing rows, and only with buffers that have room for a row. *)
From Verif Require Export PCong PImage PGeom SRoom PEncode PRound MAvx2.
From Coq Require Import ZifyBool ZifyNat.

Section Room.
  Variables im1 im : image.
  Variable pl : planes.
  Variable cap : Z.
  Variable Him : image_ok im pl.
  Variable Ec : im_color im1 = im_color im.
  Variable Ew : im_width im1 = im_width im.
  Variable Eh : im_height im1 = im_height im.
  Variable Hfill : forall y bs, call_in_order cap im y bs -> exec (im_fill im1 y bs) = exec (im_fill im y bs).
  Let W := im_width im.
  Let H := im_height im.
  Let n := Z.to_nat (num_components (im_color im)).

  Lemma buf_length bw ys i : (i < n)%nat -> (n <= 4)%nat -> 0 <= bw ->
    Z.of_nat (length (nth i (buf_of n pl W H bw ys) [])) = Z.of_nat (length ys) * bw.
  Proof.
    intros Hi Hn Hbw. rewrite (nth_error_nth _ _ _ (buf_of_nth im pl bw ys i Hi Hn)).
    induction ys as [|y ys IH]; cbn [map concat length]; [lia|].
    rewrite app_length. unfold padded_row at 1. rewrite map_length, zrange_length. lia.
  Qed.

  Lemma fill_rows_room bw ys : W <= bw -> Forall (fun y => 0 <= y) ys -> Z.of_nat (length ys) * bw <= cap ->
    exec (fill_rows im1 bw ys [[]; []; []; []]) = exec (fill_rows im bw ys [[]; []; []; []]).
  Proof.
    intros Hbw Hys Hcap. unfold fill_rows. rewrite Ew, Eh.
    pose proof (io_width _ _ Him) as HW. pose proof (io_height _ _ Him) as HH. fold W in HW. fold H in HH.
    assert (G : forall post pre, Forall (fun y => 0 <= y) post -> Z.of_nat (length (pre ++ post)) * bw <= cap ->
      exec (foldM (fun row y => let y := Z.min y (im_height im - 1) in
              let* row := im_fill im1 y row in Ret (pad_row (im_width im) bw row)) post (buf_of n pl W H bw pre))
      = exec (foldM (fun row y => let y := Z.min y (im_height im - 1) in
              let* row := im_fill im y row in Ret (pad_row (im_width im) bw row)) post (buf_of n pl W H bw pre))).
    { induction post as [|y post IH]; intros pre HF Hc; [reflexivity|].
      inversion HF; subst. cbn [foldM].
      apply exec_bind_cong.
      - cbv zeta. apply exec_bind_cong; [|reflexivity]. apply Hfill. split; [|split].
        + fold H. lia.
        + reflexivity.
        + intros i Hi. fold W. rewrite buf_length by (unfold n; try lia; destruct (im_color im); cbn; lia).
          rewrite app_length in Hc. cbn [length] in Hc. nia.
      - intros o a Ha. cbv zeta in Ha.
        assert (E : exec (let* row := im_fill im (Z.min y (im_height im - 1)) (buf_of n pl W H bw pre) in
                          Ret (pad_row (im_width im) bw row)) = ([], Ok (buf_of n pl W H bw (pre ++ [y])))).
        { exact (fill_rows_step im pl Him bw pre y Hbw ltac:(assumption)). }
        assert (E1 : exec (im_fill im1 (Z.min y (im_height im - 1)) (buf_of n pl W H bw pre)) =
                     exec (im_fill im (Z.min y (im_height im - 1)) (buf_of n pl W H bw pre))).
        { apply Hfill. split; [|split].
          + fold H. lia.
          + reflexivity.
          + intros i Hi. fold W. rewrite buf_length by (unfold n; try lia; destruct (im_color im); cbn; lia).
            rewrite app_length in Hc. cbn [length] in Hc. nia. }
        rewrite (exec_bind_cong _ _ _ _ E1 (fun _ _ _ => eq_refl)), E in Ha. inversion Ha; subst.
        apply IH; [assumption|]. rewrite <- app_assoc. exact Hc. }
    specialize (G ys [] Hys Hcap). replace (buf_of n pl W H bw []) with ([[]; []; []; []] : bufs) in G.
    - exact G.
    - unfold buf_of. cbn [seq map flat_map]. now repeat (destruct (_ <? n)%nat).
  Qed.

  Lemma init_rows_empty cs o row : exec (init_rows cs) = (o, Ok row) -> row = [[]; []; []; []].
  Proof.
    unfold init_rows. destruct (length cs) as [|[|[|[|[|]]]]]; cbn [exec]; intros X; inversion X; subst; reflexivity.
  Qed.

  Variable cs : list component.
  Variables mh mv : Z.
  Variable Hcs : comps_ok cs mh mv.
  Let nc := ceil_div W (8 * mh).
  Let nr := ceil_div H (8 * mv).

  Lemma encode_blocks_room P op q0 q1 : nc * mh * (nr * mv) * 64 <= cap ->
    exec (encode_blocks P op cs im1 q0 q1) = exec (encode_blocks P op cs im q0 q1).
  Proof.
    intros Hcap. pose proof (cs_mh _ _ _ Hcs) as Hmh. pose proof (cs_mv _ _ _ Hcs) as Hmv.
    pose proof (io_width _ _ Him) as HW. pose proof (io_height _ _ Him) as HH. fold W in HW. fold H in HH.
    pose proof (ceil_div_spec W (8 * mh) ltac:(lia)) as S1. pose proof (ceil_div_spec H (8 * mv) ltac:(lia)) as S2.
    unfold encode_blocks. cbv zeta. rewrite Ew, Eh, (cs_max _ _ _ Hcs). fold W H. fold nc nr in S1, S2 |- *.
    apply exec_bind_cong; [reflexivity|intros _ _ _].
    apply exec_bind_cong; [reflexivity|intros _ _ _].
    apply exec_bind_cong; [reflexivity|intros _ _ _].
    apply exec_bind_cong; [reflexivity|intros o row Hr]. apply init_rows_empty in Hr. subst row.
    apply exec_bind_cong; [|reflexivity].
    apply fill_rows_room; [nia|apply nonneg_zrange|]. rewrite zrange_length. rewrite Z2Nat.id by nia. lia.
  Qed.

  Lemma enc_frame_room P e ht q0 q1 :
    enc_write_frame_header P e cs ht im1 q0 q1 = enc_write_frame_header P e cs ht im q0 q1.
  Proof. unfold enc_write_frame_header. now rewrite Ew, Eh, Ec. Qed.

  Lemma sequential_room P op e q0 q1 w : nc * mh * (nr * mv) * 64 <= cap ->
    exec (encode_image_sequential P op e cs im1 q0 q1 w) = exec (encode_image_sequential P op e cs im q0 q1 w).
  Proof.
    intros Hcap. unfold encode_image_sequential. cbv zeta. apply exec_bind_cong; [now apply encode_blocks_room|intros _ bs _].
    apply exec_bind_ext. intros ht. rewrite enc_frame_room. reflexivity.
  Qed.
  Lemma progressive_room P op e s q0 q1 w : nc * mh * (nr * mv) * 64 <= cap ->
    exec (encode_image_progressive P op e s cs im1 q0 q1 w) = exec (encode_image_progressive P op e s cs im q0 q1 w).
  Proof.
    intros Hcap. unfold encode_image_progressive. cbv zeta. apply exec_bind_cong; [now apply encode_blocks_room|intros _ bs _].
    apply exec_bind_ext. intros ht. rewrite enc_frame_room. reflexivity.
  Qed.
  Lemma interleaved_room P op e q0 q1 w : nc * 8 * mh * 8 * mv <= cap ->
    exec (encode_image_interleaved P op e cs im1 q0 q1 w) = exec (encode_image_interleaved P op e cs im q0 q1 w).
  Proof.
    intros Hcap. pose proof (cs_mh _ _ _ Hcs) as Hmh. pose proof (cs_mv _ _ _ Hcs) as Hmv.
    pose proof (io_width _ _ Him) as HW. pose proof (io_height _ _ Him) as HH. fold W in HW. fold H in HH.
    pose proof (ceil_div_spec W (8 * mh) ltac:(lia)) as S1.
    unfold encode_image_interleaved. rewrite enc_frame_room. cbv zeta. rewrite Ew, Eh, (cs_max _ _ _ Hcs). fold W H. fold nc in S1 |- *.
    apply exec_bind_ext. intros _. apply exec_bind_ext. intros _.
    apply exec_bind_ext. intros _. apply exec_bind_cong; [reflexivity|intros o row Hr]. apply init_rows_empty in Hr. subst row.
    apply exec_bind_cong; [|reflexivity].
    apply (exec_foldM_cong (fun _ => True) (fun y => 0 <= y)); [apply nonneg_zrange| |exact I].
    intros st by_ _ Hby. split; [|trivial].
    apply exec_bind_cong; [|reflexivity]. cbn [map].
    apply fill_rows_room; [nia|apply map_nonneg_zrange; intros; nia|]. rewrite map_length, zrange_length. rewrite Z2Nat.id by lia. lia.
  Qed.
End Room.

(** The capacity without wrap-around *)
Definition exact_capacity (e : encoder) (color : jcolor) (width height : Z) : Z :=
  let '(maxh, maxv) := max_sampling (e_components e ++ init_components (e_sampling e) color) in
  let blocks := (ceil_div width (8 * maxh) * maxh) * (ceil_div height (8 * maxv) * maxv) * 64 in
  let rows := ceil_div width (8 * maxh) * 8 * maxh * 8 * maxv in
  match e_prog e with
  | Some _ => blocks
  | None => if e_optimize e || negb (supports_interleaved (e_sampling e)) then blocks else rows
  end.

Theorem internal_room P op e im1 im pl cap :
  image_ok im pl -> im_color im1 = im_color im -> im_width im1 = im_width im -> im_height im1 = im_height im ->
  (forall y bs, call_in_order cap im y bs -> exec (im_fill im1 y bs) = exec (im_fill im y bs)) ->
  e_components e = [] -> exact_capacity e (im_color im) (im_width im) (im_height im) <= cap ->
  exec (encode_image_internal P op e im1) = exec (encode_image_internal P op e im).
Proof.
  intros Him Ec Ew Eh Hfill Hce Hcap. unfold encode_image_internal. rewrite Ew, Eh, Ec.
  destruct ((im_width im =? 0) || (im_height im =? 0)); [reflexivity|].
  do 4 (apply exec_bind_ext; intros ?). cbv zeta.
  do 4 (apply exec_bind_ext; intros ?).
  apply exec_bind_cong; [|reflexivity].
  unfold exact_capacity in Hcap. rewrite Hce in *. cbn [app] in *.
  pose proof (init_components_ok (e_sampling e) (im_color im)) as Hcs.
  rewrite (cs_max _ _ _ Hcs) in Hcap.
  destruct (e_prog e); [eapply progressive_room; eassumption|].
  destruct (_ || _); [eapply sequential_room; eassumption|eapply interleaved_room; eassumption].
Qed.

Lemma row_capacity_exact P e color w h : plat_ok P -> e_components e = [] -> 1 <= w <= 65535 -> 1 <= h <= 65535 ->
  w * h < 2 ^ (ubits P - 1) -> row_capacity P e color w h = exact_capacity e color w h.
Proof.
  intros HP Hce Hw Hh Hfit. unfold row_capacity, exact_capacity. rewrite Hce. cbn [app].
  pose proof (init_components_ok (e_sampling e) color) as Hcs. rewrite (cs_max _ _ _ Hcs).
  pose proof (cs_mh _ _ _ Hcs) as Hmh. pose proof (cs_mv _ _ _ Hcs) as Hmv.
  set (mh := max_h _ _) in *. set (mv := max_v _ _) in *. clearbody mh mv.
  pose proof (ceil_div_spec w (8 * mh) ltac:(lia)) as S1. pose proof (ceil_div_spec h (8 * mv) ltac:(lia)) as S2.
  set (nc := ceil_div w (8 * mh)) in *. set (nr := ceil_div h (8 * mv)) in *. clearbody nc nr.
  assert (B1 : 0 <= nc * mh * 8 <= w + 31) by nia. assert (B2 : 0 <= nr * mv * 8 <= h + 31) by nia.
  assert (B3 : 0 <= nc * mh * (nr * mv) * 64 <= (w + 31) * (h + 31)) by nia.
  assert (B4 : (w + 31) * (h + 31) <= w * h + 31 * (w + h) + 961) by lia.
  assert (B5 : 0 <= nc * 8 * mh * 8 * mv <= (w + 31) * 32) by nia.
  assert (Hu : w * h + 31 * (w + h) + 961 < 2 ^ ubits P /\ (w + 31) * 32 < 2 ^ ubits P).
  { destruct HP as [E|E]; rewrite E in *; [change (2 ^ (32 - 1)) with 2147483648 in *; change (2 ^ 32) with 4294967296|
      change (2 ^ (64 - 1)) with 9223372036854775808 in *; change (2 ^ 64) with 18446744073709551616]; lia. }
  unfold wrap_u. rewrite !Z.mod_small by lia. reflexivity.
Qed.
