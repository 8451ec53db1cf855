(** The exact output: C40, and its independence of the build and the target: C31. *)
From Verif Require Import T81 SFile SEncode PRound PBytesF PPlat SHuff ThmRound.
From Coq Require Import ZifyBool ZifyNat.

(** ** C40: standard tables *)
(** Every configuration that does not ask for optimized tables (any quantization tables, any number of
    progressive scans, any restart interval), every valid image: the bytes are those of the reference
    encoder of SEncode.v with the tables of Annex K. *)
Theorem C40_exact_bytes : forall P quality calls data w h c,
  Forall call_wf calls -> s_optimize (settings_of quality calls) = false -> valid_input P data w h c ->
  exec (run_encode P quality calls data w h c)
  = (jpeg_file annexK_tables (settings_of quality calls) (spec_color c) (spec_plane c data w) w h, Ok tt).
Proof.
  intros P quality calls data w h c C O V. rewrite run_encode_eq by assumption.
  pose proof (std_bytes_with P (vi_platform _ _ _ _ _ V) _ (settings_of_wf quality calls C) O
    default_operations fdct_pure int_dct _ _ default_op_ok fdct_is_int_dct (valid_image _ _ _ _ _ V)) as H.
  unfold emits in H. rewrite H.
  - unfold jpeg_file, jpeg_file_with, spec_cf. rewrite image_of_width, image_of_height, image_of_color. reflexivity.
  - rewrite image_of_width, image_of_height. apply (valid_fits _ _ _ _ _ V).
Qed.

Theorem C40_exact_bytes_image : forall P quality calls im pl,
  Forall call_wf calls -> s_optimize (settings_of quality calls) = false -> valid_buffer P im pl ->
  exec (run_encode_image P quality calls im)
  = (jpeg_file annexK_tables (settings_of quality calls) (im_color im) pl (im_width im) (im_height im), Ok tt).
Proof.
  intros P quality calls im pl C O V. rewrite run_encode_image_eq by assumption.
  exact (std_bytes_with P (vb_platform _ _ _ V) _ (settings_of_wf quality calls C) O
    default_operations fdct_pure int_dct _ _ default_op_ok fdct_is_int_dct (vb_image _ _ _ V) (vb_fits _ _ _ V)).
Qed.

(** A concrete case: more scans than T.81 can express, quantizers above 255. *)
Definition ex_odd : list call :=
  [CScans 40; CQuant (QCustom (repeat 700 64)) QFlat; CSampling R_4_1_0; CRestart 2; CSegment 14 [65; 66]].
Example ex_odd_wf : Forall call_wf ex_odd.
Proof.
  repeat constructor; cbn [ex_odd call_wf qtype_wf] in *; unfold is_u16, is_u8; try lia; try exact I.
Qed.
Example ex_odd_bytes :
  exec (run_encode debug64 60 ex_odd ex_data 3 2 Rgb)
  = (jpeg_file annexK_tables (settings_of 60 ex_odd) JYcbcr (spec_plane Rgb ex_data 3) 3 2, Ok tt) /\
  (200 <? length (jpeg_file annexK_tables (settings_of 60 ex_odd) JYcbcr (spec_plane Rgb ex_data 3) 3 2))%nat = true.
Proof.
  split; [|vm_compute; reflexivity].
  apply (C40_exact_bytes debug64 60 ex_odd ex_data 3 2 Rgb ex_odd_wf eq_refl ex_valid).
Qed.

(** ** C40: optimized tables *)
(** The same with optimized tables: there are four tables, which a decoder accepts, that depend only on the
    configuration and the image, and the bytes are those of the reference encoder with them. *)
Definition accepted (t : huff) : Prop := exists tb, build_table (fst t) (snd t) = Some tb.

Lemma opt_tables_accepted P im pl F e t0 t1 d0 a0 d1 a1 bd0 ba0 bd1 ba1 :
  opt_tables P im pl F e t0 t1 d0 a0 d1 a1 bd0 ba0 bd1 ba1 ->
  forall d, accepted (tb_dc (tables_of d0 a0 d1 a1) d) /\ accepted (tb_ac (tables_of d0 a0 d1 a1) d).
Proof.
  intros (_ & V0 & V1 & V2 & V3 & _) d. cbn [tables_of tb_dc tb_ac].
  destruct (d =? 0); split; eexists; eapply PSegments.vt_build; eassumption.
Qed.

(** Samples of the planes are bytes. *)
Definition byte_planes (color : jcolor) (w h : Z) (pl : planes) : Prop :=
  1 <= w <= 65535 /\ 1 <= h <= 65535 /\
  forall i y x, Z.of_nat i < num_components color -> 0 <= y < h -> 0 <= x < w -> 0 <= pl i y x <= 255.

(** An ImageBuffer with given planes. *)
Definition plane_image (color : jcolor) (w h : Z) (pl : planes) : image :=
  {| im_color := color; im_width := w; im_height := h;
     im_fill := fun y bs => Ret (append_row (Z.to_nat (num_components color)) pl w y bs) |}.
Lemma plane_image_ok color w h pl : byte_planes color w h pl -> image_ok (plane_image color w h pl) pl.
Proof. intros (Hw & Hh & Hp). constructor; try assumption. reflexivity. Qed.
Lemma opt_tables_same P im im' pl F e t0 t1 d0 a0 d1 a1 bd0 ba0 bd1 ba1 :
  im_color im = im_color im' -> im_width im = im_width im' -> im_height im = im_height im' ->
  opt_tables P im pl F e t0 t1 d0 a0 d1 a1 bd0 ba0 bd1 ba1 ->
  opt_tables P im' pl F e t0 t1 d0 a0 d1 a1 bd0 ba0 bd1 ba1.
Proof.
  destruct im as [c w h f], im' as [c' w' h' f']. cbn [im_color im_width im_height]. intros -> -> -> H. exact H.
Qed.

Theorem C40_exact_bytes_image_optimized : forall quality calls color w h pl,
  opt_any quality calls -> byte_planes color w h pl ->
  few_blocks (settings_of quality calls) color w h -> no_restarts (settings_of quality calls) color w h ->
  exists t, (forall d, accepted (tb_dc t d) /\ accepted (tb_ac t d)) /\
    forall P im, valid_buffer P im pl -> im_color im = color -> im_width im = w -> im_height im = h ->
      exec (run_encode_image P quality calls im)
      = (jpeg_file t (settings_of quality calls) color pl w h, Ok tt).
Proof.
  intros quality calls color w h pl C Hpl Hfew Hno.
  destruct (opt_tables_with (settings_of quality calls) (settings_of_wf quality calls (oa_calls _ _ C)) (oa_huffman _ _ C) default_operations fdct_pure default_op_ok (plane_image color w h pl) pl (plane_image_ok _ _ _ _ Hpl) Hfew)
    as (d0 & a0 & d1 & a1 & bd0 & ba0 & bd1 & ba1 & Ht).
  exists (tables_of d0 a0 d1 a1). split; [exact (opt_tables_accepted _ _ _ _ _ _ _ _ _ _ _ _ _ _ _ Ht)|].
  intros P im V Ec Ew Eh. rewrite run_encode_image_eq by apply C.
  pose proof (opt_tables_same _ (plane_image color w h pl) im _ _ _ _ _ _ _ _ _ _ _ _ _ (eq_sym Ec) (eq_sym Ew) (eq_sym Eh) Ht) as Ht'.
  rewrite <- Ec, <- Ew, <- Eh in Hno |- *.
  exact (opt_bytes_with (settings_of quality calls) (settings_of_wf quality calls (oa_calls _ _ C)) (oa_huffman _ _ C) default_operations fdct_pure int_dct default_op_ok fdct_is_int_dct P im pl _ _ _ _ _ _ _ _
    (vb_platform _ _ _ V) (vb_image _ _ _ V) (vb_fits _ _ _ V) Hno Ht').
Qed.

Theorem C40_exact_bytes_optimized : forall quality calls data w h c,
  opt_any quality calls ->
  few_blocks (settings_of quality calls) (spec_color c) w h -> no_restarts (settings_of quality calls) (spec_color c) w h ->
  (exists P, valid_input P data w h c) ->
  exists t, (forall d, accepted (tb_dc t d) /\ accepted (tb_ac t d)) /\
    forall P, valid_input P data w h c ->
      exec (run_encode P quality calls data w h c)
      = (jpeg_file t (settings_of quality calls) (spec_color c) (spec_plane c data w) w h, Ok tt).
Proof.
  intros quality calls data w h c C Hfew Hno (P0 & V0).
  destruct (C40_exact_bytes_image_optimized quality calls (spec_color c) w h (spec_plane c data w)) as (t & Ha & Ht);
    try assumption.
  { pose proof (valid_image _ _ _ _ _ V0) as Vi. split; [apply V0|]. split; [apply V0|].
    pose proof (io_range _ _ Vi) as Hr. rewrite image_of_width, image_of_height, image_of_color in Hr. exact Hr. }
  exists t. split; [exact Ha|]. intros P V. rewrite run_encode_eq by (apply C || assumption).
  rewrite <- run_encode_image_eq by apply C. apply Ht.
  - split; [apply V|exact (valid_image _ _ _ _ _ V)|].
    rewrite image_of_width, image_of_height. apply (valid_fits _ _ _ _ _ V).
  - apply image_of_color.
  - apply image_of_width.
  - apply image_of_height.
Qed.
(** The hypotheses are those of C02 (ThmHuff.v, C02_config). *)

(** ** C31 *)
(** A call that is valid on both of two platforms (checked or unchecked arithmetic, 32 or 64 bit targets) writes
    the same bytes on both. *)
Theorem C31_platform_independent : forall P1 P2 quality calls data w h c,
  Forall call_wf calls -> s_optimize (settings_of quality calls) = false ->
  valid_input P1 data w h c -> valid_input P2 data w h c ->
  exec (run_encode P1 quality calls data w h c) = exec (run_encode P2 quality calls data w h c) /\
  snd (exec (run_encode P1 quality calls data w h c)) = Ok tt.
Proof. intros. rewrite !C40_exact_bytes by assumption. split; reflexivity. Qed.
Theorem C31_platform_independent_optimized : forall P1 P2 quality calls data w h c,
  opt_any quality calls ->
  few_blocks (settings_of quality calls) (spec_color c) w h -> no_restarts (settings_of quality calls) (spec_color c) w h ->
  valid_input P1 data w h c -> valid_input P2 data w h c ->
  exec (run_encode P1 quality calls data w h c) = exec (run_encode P2 quality calls data w h c) /\
  snd (exec (run_encode P1 quality calls data w h c)) = Ok tt.
Proof.
  intros P1 P2 quality calls data w h c C Hf Hn V1 V2.
  destruct (C40_exact_bytes_optimized quality calls data w h c C Hf Hn (ex_intro _ P1 V1)) as (t & _ & Ht).
  rewrite (Ht P1 V1), (Ht P2 V2). split; reflexivity.
Qed.
Definition release32 : platform := {| dbg := false; ubits := 32 |}.
Example C31_case : valid_input debug64 ex_data 3 2 Rgb /\ valid_input release32 ex_data 3 2 Rgb.
Proof.
  split; [exact ex_valid|]. constructor; try (cbn; lia).
  - now left.
  - repeat constructor; unfold is_u8; lia.
Qed.
