(** C55: what the other properties promise for [encode] and [encode_image] is also kept by a build with the feature
    "simd" on a processor with AVX2 (where the file itself may differ, see C33). *)
From Verif Require Import MAvx2 SAvx2 SRoom MWrite PWr PRefine PCong PAvxDct PRound PApi PEncode PBytesF T81 SFile SEncode SSize SHuff SRestart SDecide
  PPlat PRest PParts PDecide PCount PAll ThmApi ThmRound ThmScan ThmHuff ThmBytes ThmImage ThmRestart ThmDecide ThmAvx2 ThmAll ThmWrite ThmPlat.
From Coq Require Import ZArith List Bool Lia ZifyBool ZifyNat.
Import ListNotations.
Open Scope Z_scope.

(** ** The outcome of every valid call (C03, C31, C36, C40)
    There are four tables that depend on image and configuration only (the standard ones without optimization), such
    that in every build the file is that of the reference encoder with these tables and the SIMD transform; the one
    exception is the panic of C03, in builds with debug assertions. Or else, only for images of more than 146,467 data
    units with optimized tables, the call ends in the index panic of the table construction in every build (C43). *)
Theorem C55_outcome_image : forall quality calls color w h pl, let s := settings_of quality calls in
  Forall call_wf calls -> byte_planes color w h pl -> (s_optimize s = true -> countable s color w h) ->
  (exists t, (s_optimize s = false -> t = annexK_tables) /\ storable_tables t /\
    forall P im, valid_buffer P im pl -> im_color im = color -> im_width im = w -> im_height im = h ->
      (s_optimize s = false \/ restart_covered avx2_dct s color pl w h \/ dbg P = false ->
         exec (run_encode_image_avx2 P quality calls im) = (jpeg_file_with avx2_dct t s color pl w h, Ok tt) /\
         Forall is_u8 (jpeg_file_with avx2_dct t s color pl w h)) /\
      (s_optimize s = true -> ~ restart_covered avx2_dct s color pl w h -> dbg P = true ->
         exists bytes, exec (run_encode_image_avx2 P quality calls im) = (bytes, Panicked PDebugAssert))) \/
  (s_optimize s = true /\ ~ few_blocks s color w h /\
    forall P im, valid_buffer P im pl -> im_color im = color -> im_width im = w -> im_height im = h ->
      exists bytes, exec (run_encode_image_avx2 P quality calls im) = (bytes, Panicked PIndex)).
Proof.
  intros quality calls color w h pl s C Hpl Hcnt. pose proof (settings_of_wf quality calls C) as Hs. fold s in Hs.
  assert (R : forall P im, run_encode_image_avx2 P quality calls im = encode_image_internal P avx2_operations (enc_of s) im).
  { intros P im. unfold run_encode_image_avx2. rewrite build_ret by assumption. reflexivity. }
  destruct (s_optimize s) eqn:O.
  - destruct (opt_tables_or s Hs O avx2_operations avx2_pure avx2_op_ok (plane_image color w h pl) pl (plane_image_ok _ _ _ _ Hpl) (Hcnt eq_refl))
      as [(d0 & a0 & d1 & a1 & bd0 & ba0 & bd1 & ba1 & Ht)|[N _]].
    2:{ right. split; [reflexivity|]. split.
      - intros Hfew. apply N. exact (opt_tables_with s Hs O avx2_operations avx2_pure avx2_op_ok (plane_image color w h pl) pl (plane_image_ok _ _ _ _ Hpl) Hfew).
      - intros P im V Ec Ew Eh. rewrite R. pose proof (Hcnt eq_refl) as Hc. rewrite <- Ec, <- Ew, <- Eh in Hc.
        destruct (opt_tables_or s Hs O avx2_operations avx2_pure avx2_op_ok im pl (vb_image _ _ _ V) Hc)
          as [(d0 & a0 & d1 & a1 & bd0 & ba0 & bd1 & ba1 & Ht)|[_ X]].
        + exfalso. apply N. exists d0, a0, d1, a1, bd0, ba0, bd1, ba1.
          exact (opt_tables_same _ im (plane_image color w h pl) _ _ _ _ _ _ _ _ _ _ _ _ _ Ec Ew Eh Ht).
        + exact (X P (vb_platform _ _ _ V) (vb_fits _ _ _ V)). }
    left. exists (tables_of d0 a0 d1 a1). split; [discriminate|]. split; [exact (opt_storable _ _ _ _ _ _ _ _ _ _ _ _ Ht)|].
    intros P im V Ec Ew Eh. rewrite R.
    pose proof (opt_tables_same _ (plane_image color w h pl) im _ _ _ _ _ _ _ _ _ _ _ _ _ (eq_sym Ec) (eq_sym Ew) (eq_sym Eh) Ht) as Ht'.
    pose proof (Hcnt eq_refl) as Hf.
    assert (Hb : Forall is_u8 (jpeg_file_with avx2_dct (tables_of d0 a0 d1 a1) s color pl w h)).
    { destruct Hpl as (? & ? & _). apply file_bytes; try assumption.
      - exact (opt_storable _ _ _ _ _ _ _ _ _ _ _ _ Ht).
      - exact (opt_byte_tables _ _ _ _ _ _ _ _ _ _ _ _ _ _ _ Ht). }
    rewrite <- Ec, <- Ew, <- Eh in Hf, Hb |- *.
    rewrite <- (covered_iff s Hs O avx2_operations avx2_pure avx2_dct avx2_op_ok avx2_is_dct im pl (vb_image _ _ _ V)).
    split.
    + intros Hc. split; [|exact Hb].
      apply (opt_bytes_written s Hs O avx2_operations avx2_pure avx2_dct avx2_op_ok avx2_is_dct P im pl _ _ _ _ _ _ _ _
        (vb_platform _ _ _ V) (vb_image _ _ _ V) (vb_fits _ _ _ V) Ht').
      destruct Hc as [Hc|[Hc|Hd]]; [discriminate Hc| |].
      * exact (covered_written s avx2_pure P im pl _ _ _ _ _ _ _ _ Ht' Hc).
      * exact (release_written s Hs O avx2_operations avx2_pure avx2_op_ok im pl (vb_image _ _ _ V) Hf P _ _ _ _ _ _ _ _ Hd Ht').
    + intros _ Hnc Hd.
      exact (debug_panics s Hs O avx2_operations avx2_pure avx2_dct avx2_op_ok avx2_is_dct im pl (vb_image _ _ _ V) Hf P
        (vb_platform _ _ _ V) (vb_fits _ _ _ V) Hd _ _ _ _ _ _ _ _ Ht' Hnc).
  - left. exists annexK_tables. split; [reflexivity|]. split; [exact annexK_storable|].
    intros P im V Ec Ew Eh. rewrite R. split; [intros _|discriminate].
    pose proof (std_bytes_with P (vb_platform _ _ _ V) _ Hs O avx2_operations avx2_pure avx2_dct im pl avx2_op_ok avx2_is_dct (vb_image _ _ _ V) (vb_fits _ _ _ V)) as H.
    unfold emits in H. split.
    + rewrite H. unfold jpeg_file_with, spec_cf. rewrite Ec, Ew, Eh. reflexivity.
    + destruct Hpl as (? & ? & _). apply file_bytes; try assumption; [exact annexK_storable|exact annexK_bytes].
Qed.
(** For [encode]: the planes are those of the converted pixels. *)
Lemma input_byte_planes P data w h c : valid_input P data w h c -> byte_planes (spec_color c) w h (spec_plane c data w).
Proof.
  intros V. pose proof (valid_image _ _ _ _ _ V) as Vi. split; [apply V|]. split; [apply V|].
  pose proof (io_range _ _ Vi) as Hr. rewrite image_of_width, image_of_height, image_of_color in Hr. exact Hr.
Qed.
Theorem C55_outcome : forall quality calls data w h c, let s := settings_of quality calls in
  let covered := restart_covered avx2_dct s (spec_color c) (spec_plane c data w) w h in
  Forall call_wf calls -> (exists P, valid_input P data w h c) -> (s_optimize s = true -> countable s (spec_color c) w h) ->
  (exists t, (s_optimize s = false -> t = annexK_tables) /\ storable_tables t /\
    let file := jpeg_file_with avx2_dct t s (spec_color c) (spec_plane c data w) w h in
    forall P, valid_input P data w h c ->
      (s_optimize s = false \/ covered \/ dbg P = false ->
         exec (run_encode_avx2 P quality calls data w h c) = (file, Ok tt) /\ Forall is_u8 file) /\
      (s_optimize s = true -> ~ covered -> dbg P = true ->
         exists bytes, exec (run_encode_avx2 P quality calls data w h c) = (bytes, Panicked PDebugAssert))) \/
  (s_optimize s = true /\ ~ few_blocks s (spec_color c) w h /\
    forall P, valid_input P data w h c -> exists bytes, exec (run_encode_avx2 P quality calls data w h c) = (bytes, Panicked PIndex)).
Proof.
  intros quality calls data w h c s covered C (P0 & V0) Hcnt.
  destruct (C55_outcome_image quality calls (spec_color c) w h (spec_plane c data w) C (input_byte_planes _ _ _ _ _ V0) Hcnt) as [(t & Ha & Hst & Ht)|(O & N & Ht)].
  2:{ right. split; [exact O|]. split; [exact N|]. intros P V. rewrite (C32_same_run P quality calls data w h c C V). apply Ht.
    - split; [apply V|exact (valid_image _ _ _ _ _ V)|]. rewrite image_of_width, image_of_height. apply (valid_fits _ _ _ _ _ V).
    - apply image_of_color.
    - apply image_of_width.
    - apply image_of_height. }
  left. exists t. split; [exact Ha|]. split; [exact Hst|]. intros file P V.
  rewrite (C32_same_run P quality calls data w h c C V). apply Ht.
  - split; [apply V|exact (valid_image _ _ _ _ _ V)|]. rewrite image_of_width, image_of_height. apply (valid_fits _ _ _ _ _ V).
  - apply image_of_color.
  - apply image_of_width.
  - apply image_of_height.
Qed.

(** ** Writes (C07, C49), invalid calls (C08) *)
Lemma avx2_op_wr : op_wr avx2_operations.
Proof. intros P b. apply wr_ret. Qed.
Lemma wr_read_ptr d i : wr (read_ptr d i). Proof. unfold read_ptr. destruct (_ && _); constructor. Qed.
Lemma wr_load3 d n p : wr (load3 d n p).
Proof. unfold load3. apply wr_bind; [apply wr_mapM; intros; apply wr_read_ptr|]. intros; constructor. Qed.
Lemma wr_fill_avx2 P n o1 o2 o3 d w cap y bs : wr (fill_buffers_avx2 P n o1 o2 o3 d w cap y bs).
Proof.
  unfold fill_buffers_avx2. destruct bs as [|b0 [|b1 [|b2 [|b3 [|]]]]]; try constructor.
  destruct (_ || _); [constructor|].
  apply wr_bind; [unfold ck_s; destruct (_ && _); [constructor|destruct (dbg P); constructor]|]. intros a.
  apply wr_bind; [unfold ck_s; destruct (_ && _); [constructor|destruct (dbg P); constructor]|]. intros st.
  apply wr_bind.
  { apply wr_foldM. intros [[[p x0] x1] x2] _. repeat (apply wr_bind; [apply wr_load3|intros ?]). constructor. }
  intros [[[p x0] x1] x2]. apply wr_bind; [|intros [[[p' x0'] x1'] x2']; constructor].
  apply wr_foldM. intros [[[p1 y0] y1] y2] _. do 3 (apply wr_bind; [apply wr_read_ptr|intros ?]).
  destruct (rgb_to_ycbcr _ _ _) as [[? ?] ?]. constructor.
Qed.
Lemma wr_image_of_avx2 P cap data w h c : im_wr (image_of_avx2 P cap data w h c).
Proof. destruct c; try apply wr_image_of; intros y bs; apply wr_fill_avx2. Qed.
Lemma image_of_avx2_width P cap data w h c : im_width (image_of_avx2 P cap data w h c) = w.
Proof. destruct c; reflexivity. Qed.
Lemma image_of_avx2_height P cap data w h c : im_height (image_of_avx2 P cap data w h c) = h.
Proof. destruct c; reflexivity. Qed.
Lemma encode_avx2_strict P e data w h c : strict (encode_avx2 P e data w h c).
Proof.
  assert (G : forall cap, strict (encode_image_avx2 P e (image_of_avx2 P cap data w h c))).
  { intros cap. unfold encode_image_avx2. destruct (Z.eq_dec w 0) as [->|H1]; [|destruct (Z.eq_dec h 0) as [->|H2]].
    - right. unfold encode_image_internal. rewrite image_of_avx2_width, image_of_avx2_height. cbn [Z.eqb orb]. eauto.
    - right. unfold encode_image_internal. rewrite image_of_avx2_width, image_of_avx2_height.
      replace ((w =? 0) || (0 =? 0)) with true by (cbn; lia). eauto.
    - left. apply wr_internal.
      + apply avx2_op_wr.
      + apply wr_image_of_avx2.
      + now rewrite image_of_avx2_width.
      + now rewrite image_of_avx2_height. }
  unfold encode_avx2. destruct (ck_usize_cases P (w * h)) as [[v ->]|[r ->]]; cbn [bind]; [|left; constructor].
  destruct (ck_usize_cases P (v * bytes_per_pixel c)) as [[v' ->]|[r ->]]; cbn [bind]; [|left; constructor].
  destruct (_ <? _); [right; eauto|apply G].
Qed.
Lemma run_encode_avx2_strict P quality calls data w h c : Forall call_wf calls -> strict (run_encode_avx2 P quality calls data w h c).
Proof. intros C. unfold run_encode_avx2. rewrite build_ret by assumption. apply encode_avx2_strict. Qed.
Lemma run_encode_image_avx2_strict P quality calls im : Forall call_wf calls -> im_wr im -> strict (run_encode_image_avx2 P quality calls im).
Proof.
  intros C Him. unfold run_encode_image_avx2. rewrite build_ret by assumption. cbn [bind]. unfold encode_image_avx2.
  destruct (Z.eq_dec (im_width im) 0) as [H1|H1]; [|destruct (Z.eq_dec (im_height im) 0) as [H2|H2]].
  - right. unfold encode_image_internal. rewrite H1. eexists. reflexivity.
  - right. unfold encode_image_internal. rewrite H2. replace ((im_width im =? 0) || (0 =? 0)) with true by (cbn; lia). eexists. reflexivity.
  - left. apply wr_internal; try assumption. apply avx2_op_wr.
Qed.

Lemma strict_feed {A} (p : prog A) : strict p ->
  exists chunks : list (list Z),
    concat chunks = fst (exec p) /\
    forall S (sink : S -> list Z -> S * option error) (s : S),
      run sink p s = match feed sink s chunks with
                     | (s', Some e) => (s', Err e)
                     | (s', None) => (s', snd (exec p))
                     end.
Proof.
  intros Hp. exists (PWr.writes p). split; [symmetry; apply wr_concat|]. intros S sink s. destruct Hp as [Hp|[e ->]]; [now apply wr_run|reflexivity].
Qed.
Theorem C55_write_failures : forall P quality calls data w h c, Forall call_wf calls ->
  exists chunks : list (list Z),
    concat chunks = fst (exec (run_encode_avx2 P quality calls data w h c)) /\
    forall S (sink : S -> list Z -> S * option error) (s : S),
      run sink (run_encode_avx2 P quality calls data w h c) s
      = match feed sink s chunks with
        | (s', Some e) => (s', Err e)
        | (s', None) => (s', snd (exec (run_encode_avx2 P quality calls data w h c)))
        end.
Proof. intros P quality calls data w h c C. apply strict_feed. now apply run_encode_avx2_strict. Qed.
Theorem C55_write_failures_image : forall P quality calls im, Forall call_wf calls -> im_wr im ->
  exists chunks : list (list Z),
    concat chunks = fst (exec (run_encode_image_avx2 P quality calls im)) /\
    forall S (sink : S -> list Z -> S * option error) (s : S),
      run sink (run_encode_image_avx2 P quality calls im) s
      = match feed sink s chunks with
        | (s', Some e) => (s', Err e)
        | (s', None) => (s', snd (exec (run_encode_image_avx2 P quality calls im)))
        end.
Proof. intros P quality calls im C Him. apply strict_feed. now apply run_encode_image_avx2_strict. Qed.
(** Any std::io::Write *)
Theorem C55_any_writer : forall S (w : writer S) P quality calls data width height c s s' acc r, honest w -> Forall call_wf calls ->
  let p := run_encode_avx2 P quality calls data width height c in
  run_std w p s s' acc r ->
  exists rest, fst (exec p) = acc ++ rest /\
    ((r = snd (exec p) /\ rest = []) \/ (exists e, r = Err e /\ failed_with w s' e)).
Proof. intros S w P quality calls data width height c s s' acc r Hw C p. apply strict_run; [now apply run_encode_avx2_strict|exact Hw]. Qed.

Theorem C55_invalid : forall P quality calls data w h c, plat_ok P -> Forall call_wf calls -> is_u16 w -> is_u16 h -> w * h * spec_bpp c < 2 ^ ubits P ->
  let required := w * h * spec_bpp c in
  (Z.of_nat (length data) < required ->
     exec (run_encode_avx2 P quality calls data w h c) = ([], Err (BadImageData (Z.of_nat (length data)) required))) /\
  (required <= Z.of_nat (length data) -> w = 0 \/ h = 0 ->
     exec (run_encode_avx2 P quality calls data w h c) = ([], Err (ZeroImageDimensions w h))) /\
  (required <= Z.of_nat (length data) -> w <> 0 -> h <> 0 ->
     forall bytes e, exec (run_encode_avx2 P quality calls data w h c) <> (bytes, Err e)).
Proof.
  intros P quality calls data w h c HP C Hw Hh Hfit required. unfold run_encode_avx2. rewrite build_ret by assumption. cbn [bind].
  assert (E : forall e, exists cap, encode_avx2 P e data w h c =
    if Z.of_nat (length data) <? required then Throw (BadImageData (Z.of_nat (length data)) required)
    else encode_image_avx2 P e (image_of_avx2 P cap data w h c)).
  { intros e. exists (row_capacity P e (im_color (image_of P data w h c)) w h). unfold is_u16 in *. assert (1 <= spec_bpp c) by (destruct c; cbn; lia).
    unfold encode_avx2, ck_usize. rewrite ck_u_ret by nia. cbn [bind]. rewrite spec_bpp_eq. rewrite ck_u_ret by nia. reflexivity. }
  destruct (E (enc_of (settings_of quality calls))) as (cap & ->). clear E. split; [|split].
  - intros H. replace (Z.of_nat (length data) <? required) with true by lia. reflexivity.
  - intros H Hz. replace (Z.of_nat (length data) <? required) with false by lia.
    unfold encode_image_avx2, encode_image_internal. rewrite image_of_avx2_width, image_of_avx2_height.
    replace ((w =? 0) || (h =? 0)) with true by lia. reflexivity.
  - intros H H1 H2. replace (Z.of_nat (length data) <? required) with false by lia.
    unfold encode_image_avx2. apply wr_not_err. apply wr_internal.
    + apply avx2_op_wr.
    + apply wr_image_of_avx2.
    + now rewrite image_of_avx2_width.
    + now rewrite image_of_avx2_height.
Qed.

(** ** The configuration counts, not its history (C14, C29) *)
Theorem C55_settings : forall P q1 calls1 q2 calls2, Forall call_wf calls1 -> Forall call_wf calls2 ->
  settings_of q1 calls1 = settings_of q2 calls2 ->
  (forall data w h c, run_encode_avx2 P q1 calls1 data w h c = run_encode_avx2 P q2 calls2 data w h c) /\
  (forall im, run_encode_image_avx2 P q1 calls1 im = run_encode_image_avx2 P q2 calls2 im).
Proof.
  intros P q1 calls1 q2 calls2 C1 C2 E. split; intros; unfold run_encode_avx2, run_encode_image_avx2; rewrite !build_ret by assumption; cbn [bind]; now rewrite E.
Qed.

(** ** The file is determined by the samples (C23, C24, C38) *)
Theorem C55_same_samples : forall P quality calls w h data1 c1 data2 c2, Forall call_wf calls ->
  valid_input P data1 w h c1 -> valid_input P data2 w h c2 -> spec_color c1 = spec_color c2 ->
  (forall i y x, Z.of_nat i < num_components (spec_color c1) -> 0 <= y < h -> 0 <= x < w ->
     spec_plane c1 data1 w i y x = spec_plane c2 data2 w i y x) ->
  exec (run_encode_avx2 P quality calls data1 w h c1) = exec (run_encode_avx2 P quality calls data2 w h c2).
Proof.
  intros P quality calls w h data1 c1 data2 c2 C V1 V2 Ec Hpl. rewrite !run_avx2_eq by assumption.
  pose proof (vi_height _ _ _ _ _ V1).
  apply internal_cong; [|rewrite image_of_height; lia].
  eapply same_samples_rows; [apply (valid_image _ _ _ _ _ V1)|apply (valid_image _ _ _ _ _ V2)|..].
  - now rewrite !image_of_color.
  - now rewrite !image_of_width.
  - now rewrite !image_of_height.
  - rewrite image_of_color, image_of_height, image_of_width. exact Hpl.
Qed.
Theorem C55_same_samples_image : forall P quality calls im1 pl1 im2 pl2,
  Forall call_wf calls -> image_ok im1 pl1 -> image_ok im2 pl2 ->
  im_color im1 = im_color im2 -> im_width im1 = im_width im2 -> im_height im1 = im_height im2 ->
  (forall i y x, Z.of_nat i < num_components (im_color im1) -> 0 <= y < im_height im1 -> 0 <= x < im_width im1 ->
     pl1 i y x = pl2 i y x) ->
  exec (run_encode_image_avx2 P quality calls im1) = exec (run_encode_image_avx2 P quality calls im2).
Proof.
  intros P quality calls im1 pl1 im2 pl2 C H1 H2 Ec Ew Eh Hpl. unfold run_encode_image_avx2. rewrite !build_ret by assumption. cbn [bind]. unfold encode_image_avx2.
  apply internal_cong; [|pose proof (io_height _ _ H1); lia]. eapply same_samples_rows; eassumption.
Qed.

(** ** Release builds refine checked builds (C39) *)
Section Refine.
  Variable u : Z.
  Notation D := {| dbg := true; ubits := u |}.
  Notation R := {| dbg := false; ubits := u |}.
  Lemma rf_ck_s n z : rf (ck_s D n z) (ck_s R n z).
  Proof. unfold ck_s. cbn [dbg]. destruct (_ && _); constructor. Qed.
  Lemma rf_fill_avx2 n o1 o2 o3 d w cap y bs : rf (fill_buffers_avx2 D n o1 o2 o3 d w cap y bs) (fill_buffers_avx2 R n o1 o2 o3 d w cap y bs).
  Proof.
    unfold fill_buffers_avx2. destruct bs as [|b0 [|b1 [|b2 [|b3 [|]]]]]; try constructor.
    destruct (_ || _); [constructor|]. cbn [ubits]. apply rf_bind; [apply rf_ck_s|]. intros a. apply rf_bind; [apply rf_ck_s|]. intros st. apply rf_refl.
  Qed.
  Lemma rf_image_of_avx2 cap data w h c : im_rf (image_of_avx2 D cap data w h c) (image_of_avx2 R cap data w h c).
  Proof. destruct c; try apply rf_image_of; constructor; try reflexivity; intros; apply rf_fill_avx2. Qed.
  Lemma rf_run_encode_image_avx2 q cs im : rf (run_encode_image_avx2 D q cs im) (run_encode_image_avx2 R q cs im).
  Proof.
    unfold run_encode_image_avx2, encode_image_avx2. apply rf_bind; [apply rf_build|]. intros [e r].
    apply rf_internal; [intros b; apply rf_refl|apply im_rf_refl].
  Qed.
  Lemma rf_run_encode_avx2 q cs data w h c : rf (run_encode_avx2 D q cs data w h c) (run_encode_avx2 R q cs data w h c).
  Proof.
    unfold run_encode_avx2, encode_avx2, encode_image_avx2. apply rf_bind; [apply rf_build|]. intros [e r].
    apply rf_bind; [apply rf_ck_u|]. intros a. apply rf_bind; [apply rf_ck_u|]. intros b.
    destruct (_ <? _); [constructor|]. cbv zeta.
    replace (im_color (image_of R data w h c)) with (im_color (image_of D data w h c)) by (now rewrite !image_of_color).
    change (row_capacity R) with (row_capacity D).
    apply rf_internal; [intros b0; apply rf_refl|apply rf_image_of_avx2].
  Qed.
End Refine.
Theorem C55_release_refines_debug : forall u quality calls (S : Type) (writer : S -> list Z -> S * option error) s s' r,
  (forall p, r <> Panicked p) ->
  (forall data w h c,
     run writer (run_encode_avx2 {| dbg := true; ubits := u |} quality calls data w h c) s = (s', r) ->
     run writer (run_encode_avx2 {| dbg := false; ubits := u |} quality calls data w h c) s = (s', r)) /\
  (forall im,
     run writer (run_encode_image_avx2 {| dbg := true; ubits := u |} quality calls im) s = (s', r) ->
     run writer (run_encode_image_avx2 {| dbg := false; ubits := u |} quality calls im) s = (s', r)).
Proof.
  intros u quality calls S writer s s' r Hr. split.
  - intros data w h c H. eapply rf_run; [apply rf_run_encode_avx2|exact H|exact Hr].
  - intros im H. eapply rf_run; [apply rf_run_encode_image_avx2|exact H|exact Hr].
Qed.

(** ** The structure of the file (C05, C06, C27) *)
Lemma written_simd P quality calls data w h c bytes : valid_call P quality calls data w h c ->
  exec (run_encode_avx2 P quality calls data w h c) = (bytes, Ok tt) ->
  exists t, storable_tables t /\ byte_tables t /\
    bytes = jpeg_file_with avx2_dct t (settings_of quality calls) (spec_color c) (spec_plane c data w) w h.
Proof.
  intros [C V Hfew] E. rewrite run_avx2_eq in E by assumption.
  pose proof (settings_of_wf quality calls C) as Hs. pose proof (valid_image _ _ _ _ _ V) as Him.
  destruct (written_tables _ Hs avx2_operations avx2_pure avx2_dct avx2_op_ok avx2_is_dct P (vi_platform _ _ _ _ _ V) _ _ Him) with (bytes := bytes)
    as (t & Ht & Eb & _ & Hb).
  - rewrite image_of_width, image_of_height. apply (valid_fits _ _ _ _ _ V).
  - rewrite image_of_width, image_of_height, image_of_color. exact Hfew.
  - exact E.
  - exists t. split; [exact Ht|]. split; [exact Hb|]. rewrite image_of_width, image_of_height, image_of_color in Eb. exact Eb.
Qed.
(** The scans are those of the scalar build (same headers, same DRI segment, same intervals), without stray markers; every
    interval is coded on its own, from predictions of 0. *)
Theorem C55_structure : forall P quality calls data w h c bytes, let s := settings_of quality calls in
  let f := frame_for s (spec_color c) w h in let r := s_restart s in
  valid_call P quality calls data w h c -> exec (run_encode_avx2 P quality calls data w h c) = (bytes, Ok tt) ->
  exists ps, bytes = render_file ps /\
    dri_segments ps = (if r =? 0 then [] else [[r / 256; r mod 256]]) /\
    (forall hd, In hd (scans ps) -> no_stray_marker (coded_data 0 (snd hd)) = true) /\
    Forall2 (fun hd si =>
      fst hd = scan_header f si /\
      Z.of_nat (length (snd hd)) = interval_count r (mcu_count f si) /\
      exists dc ac, snd hd = map (fun mcus => pack (encode_units dc ac (si_ss si) (si_se si)
                                     (coefficients_of avx2_dct s (spec_color c) (spec_plane c data w) w h) (fun _ => 0) (concat mcus)))
                                 (intervals r (mcus_of f si)))
      (scans ps) (scan_script s (spec_color c)).
Proof.
  intros P quality calls data w h c bytes s f r VC E. destruct (written_simd _ _ _ _ _ _ _ _ VC E) as (t & Ht & Hb & ->).
  pose proof VC as [C V _]. pose proof (settings_of_wf quality calls C) as Hs. fold s in Hs.
  exists (file_parts t s f (spec_color c) (coefficients_of avx2_dct s (spec_color c) (spec_plane c data w) w h)).
  split; [reflexivity|]. split; [exact (file_dri avx2_dct t s Hs (spec_color c) (spec_plane c data w) w h)|].
  unfold f. rewrite file_scans. fold f. split.
  { intros hd Hin. apply in_map_iff in Hin as (si & <- & _). cbn [snd]. apply no_stray_coded. apply coded_ok.
    unfold scan_data. apply Forall_map, Forall_forall. intros m _. apply pack_ok. }
  assert (G : forall l, incl l (scan_script s (spec_color c)) ->
    Forall2 (fun hd si => fst hd = scan_header f si /\ Z.of_nat (length (snd hd)) = interval_count r (mcu_count f si) /\
      exists dc ac, snd hd = map (fun mcus => pack (encode_units dc ac (si_ss si) (si_se si)
                                     (coefficients_of avx2_dct s (spec_color c) (spec_plane c data w) w h) (fun _ => 0) (concat mcus)))
                                 (intervals r (mcus_of f si)))
     (map (fun si => (scan_header f si, scan_data t f r (coefficients_of avx2_dct s (spec_color c) (spec_plane c data w) w h) si)) l) l).
  { induction l as [|si l IH]; intros Hl; [constructor|]. cbn [map]. constructor; [|apply IH; intros x Hx; apply Hl; now right].
    cbn [fst snd]. split; [reflexivity|].
    assert (M : Z.of_nat (length (mcus_of f si)) = mcu_count f si).
    { apply mcus_length; [pose proof (vi_width _ _ _ _ _ V); lia|pose proof (vi_height _ _ _ _ _ V); lia|]. apply Hl. now left. }
    split; [|eexists; eexists; reflexivity].
    unfold scan_data. rewrite map_length, intervals_length, M; [reflexivity|]. apply (sw_restart _ Hs). }
  apply G. apply incl_refl.
Qed.

(** ** Concrete cases *)
(** A valid call with restarts, 40 scans and a custom table (C55_outcome, C55_structure); too little data; a writer
    that fails at its fourth call. *)
Example C55_case : valid_call debug64 60 ex_odd ex_data 3 2 Rgb /\
  snd (exec (run_encode_avx2 debug64 60 ex_odd ex_data 3 2 Rgb)) = Ok tt.
Proof. split; [exact (proj1 every_case)|]. vm_compute. reflexivity. Qed.
Example C55_case_invalid :
  exec (run_encode_avx2 debug64 60 ex_odd (removelast ex_data) 3 2 Rgb) = ([], Err (BadImageData 17 18)).
Proof. vm_compute. reflexivity. Qed.
Example C55_case_writer :
  snd (run failing (run_encode_avx2 debug64 60 ex_odd ex_data 3 2 Rgb) []) = Err (SinkError 1).
Proof. vm_compute. reflexivity. Qed.
(** The uncovered case of C03 is uncovered for the SIMD transform too. *)
Example C55_case_panic : snd (exec (run_encode_avx2 debug64 90 bad_cfg bad_data 16 8 Luma)) = Panicked PDebugAssert.
Proof. vm_compute. reflexivity. Qed.
