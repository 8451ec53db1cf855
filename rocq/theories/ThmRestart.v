(** Optimized Huffman tables together with restart intervals (C03). *)
From Verif Require Import T81 SFile SHuff SRestart PRest ThmRound ThmHuff ThmBytes.
From Coq Require Import ZArith List Bool Lia.
Import ListNotations.
Open Scope Z_scope.

(** ** C03, in general
    For every image and every configuration with optimized tables (any restart interval) there are four tables,
    that a decoder accepts and that depend on image and configuration only, such that:
    - if every DC category that is written has been counted ([restart_covered]), the bytes are those of the
      reference encoder with these tables, in every build;
    - if not, a build without debug assertions still reports success and writes those bytes (the reference
      encoder then writes no code word for the categories without one), and
    - a build with debug assertions panics. *)
(** Images of any size for which the symbols can be counted: the same, or the table generation panics, in every
    build; with at most 146,467 data units it does not. *)
Theorem C43_outcome_image : forall quality calls color w h pl, let s := settings_of quality calls in
  opt_any quality calls -> byte_planes color w h pl -> countable s color w h ->
  (exists t, (forall d, accepted (tb_dc t d) /\ accepted (tb_ac t d)) /\
    forall P im, valid_buffer P im pl -> im_color im = color -> im_width im = w -> im_height im = h ->
      (restart_covered int_dct s color pl w h \/ dbg P = false ->
         exec (run_encode_image P quality calls im) = (jpeg_file t s color pl w h, Ok tt)) /\
      (~ restart_covered int_dct s color pl w h -> dbg P = true ->
         exists bytes, exec (run_encode_image P quality calls im) = (bytes, Panicked PDebugAssert))) \/
  (~ few_blocks s color w h /\
    forall P im, valid_buffer P im pl -> im_color im = color -> im_width im = w -> im_height im = h ->
      exists bytes, exec (run_encode_image P quality calls im) = (bytes, Panicked PIndex)).
Proof.
  intros quality calls color w h pl s C Hpl Hc.
  pose proof (settings_of_wf quality calls (oa_calls _ _ C)) as Hs. pose proof (oa_huffman _ _ C) as Hopt. fold s in Hs, Hopt.
  destruct (opt_tables_or s Hs Hopt default_operations fdct_pure default_op_ok (plane_image color w h pl) pl (plane_image_ok _ _ _ _ Hpl) Hc)
    as [(d0 & a0 & d1 & a1 & bd0 & ba0 & bd1 & ba1 & Ht)|[N _]].
  - left. exists (tables_of d0 a0 d1 a1). split; [exact (opt_tables_accepted _ _ _ _ _ _ _ _ _ _ _ _ _ _ _ Ht)|].
    intros P im V Ec Ew Eh. rewrite run_encode_image_eq by apply C. fold s.
    pose proof (opt_tables_same _ (plane_image color w h pl) im _ _ _ _ _ _ _ _ _ _ _ _ _ (eq_sym Ec) (eq_sym Ew) (eq_sym Eh) Ht) as Ht'.
    rewrite <- Ec, <- Ew, <- Eh in Hc |- *.
    rewrite <- (covered_iff s Hs Hopt default_operations fdct_pure int_dct default_op_ok fdct_is_int_dct im pl (vb_image _ _ _ V)).
    split.
    + intros Hcov.
      apply (opt_bytes_written s Hs Hopt default_operations fdct_pure int_dct default_op_ok fdct_is_int_dct P im pl _ _ _ _ _ _ _ _
        (vb_platform _ _ _ V) (vb_image _ _ _ V) (vb_fits _ _ _ V) Ht').
      destruct Hcov as [Hcov|Hd].
      * exact (covered_written s fdct_pure P im pl _ _ _ _ _ _ _ _ Ht' Hcov).
      * exact (release_written s Hs Hopt default_operations fdct_pure default_op_ok im pl (vb_image _ _ _ V) Hc P _ _ _ _ _ _ _ _ Hd Ht').
    + intros Hnc Hd.
      exact (debug_panics s Hs Hopt default_operations fdct_pure int_dct default_op_ok fdct_is_int_dct im pl (vb_image _ _ _ V) Hc P
        (vb_platform _ _ _ V) (vb_fits _ _ _ V) Hd _ _ _ _ _ _ _ _ Ht' Hnc).
  - right. split.
    + intros Hfew. apply N.
      exact (opt_tables_with s Hs Hopt default_operations fdct_pure default_op_ok (plane_image color w h pl) pl (plane_image_ok _ _ _ _ Hpl) Hfew).
    + intros P im V Ec Ew Eh. rewrite run_encode_image_eq by apply C. fold s. rewrite <- Ec, <- Ew, <- Eh in Hc.
      destruct (opt_tables_or s Hs Hopt default_operations fdct_pure default_op_ok im pl (vb_image _ _ _ V) Hc)
        as [(d0 & a0 & d1 & a1 & bd0 & ba0 & bd1 & ba1 & Ht)|[_ X]].
      * exfalso. apply N. exists d0, a0, d1, a1, bd0, ba0, bd1, ba1.
        exact (opt_tables_same _ im (plane_image color w h pl) _ _ _ _ _ _ _ _ _ _ _ _ _ Ec Ew Eh Ht).
      * exact (X P (vb_platform _ _ _ V) (vb_fits _ _ _ V)).
Qed.
Theorem C43_outcome : forall quality calls data w h c, let s := settings_of quality calls in
  let covered := restart_covered int_dct s (spec_color c) (spec_plane c data w) w h in
  opt_any quality calls -> countable s (spec_color c) w h -> (exists P, valid_input P data w h c) ->
  (exists t, (forall d, accepted (tb_dc t d) /\ accepted (tb_ac t d)) /\
    forall P, valid_input P data w h c ->
      (covered \/ dbg P = false ->
         exec (run_encode P quality calls data w h c) = (jpeg_file t s (spec_color c) (spec_plane c data w) w h, Ok tt)) /\
      (~ covered -> dbg P = true ->
         exists bytes, exec (run_encode P quality calls data w h c) = (bytes, Panicked PDebugAssert))) \/
  (~ few_blocks s (spec_color c) w h /\
    forall P, valid_input P data w h c -> exists bytes, exec (run_encode P quality calls data w h c) = (bytes, Panicked PIndex)).
Proof.
  intros quality calls data w h c s covered C Hc (P0 & V0).
  assert (R : forall P, valid_input P data w h c -> valid_buffer P (image_of P data w h c) (spec_plane c data w) /\
    exec (run_encode P quality calls data w h c) = exec (run_encode_image P quality calls (image_of P data w h c))).
  { intros P V. split.
    - split; [apply V|exact (valid_image _ _ _ _ _ V)|]. rewrite image_of_width, image_of_height. apply (valid_fits _ _ _ _ _ V).
    - rewrite run_encode_eq by (apply C || assumption). rewrite <- run_encode_image_eq by apply C. reflexivity. }
  destruct (C43_outcome_image quality calls (spec_color c) w h (spec_plane c data w)) as [(t & Ha & Ht)|[N Ht]]; try assumption.
  { pose proof (valid_image _ _ _ _ _ V0) as Vi. split; [apply V0|]. split; [apply V0|].
    pose proof (io_range _ _ Vi) as Hr. rewrite image_of_width, image_of_height, image_of_color in Hr. exact Hr. }
  - left. exists t. split; [exact Ha|]. intros P V. destruct (R P V) as [B ->].
    apply Ht; [exact B|apply image_of_color|apply image_of_width|apply image_of_height].
  - right. split; [exact N|]. intros P V. destruct (R P V) as [B ->].
    apply Ht; [exact B|apply image_of_color|apply image_of_width|apply image_of_height].
Qed.

Theorem C03_outcome_image : forall quality calls color w h pl, let s := settings_of quality calls in
  opt_any quality calls -> byte_planes color w h pl -> few_blocks s color w h ->
  exists t, (forall d, accepted (tb_dc t d) /\ accepted (tb_ac t d)) /\
    forall P im, valid_buffer P im pl -> im_color im = color -> im_width im = w -> im_height im = h ->
      (restart_covered int_dct s color pl w h \/ dbg P = false ->
         exec (run_encode_image P quality calls im) = (jpeg_file t s color pl w h, Ok tt)) /\
      (~ restart_covered int_dct s color pl w h -> dbg P = true ->
         exists bytes, exec (run_encode_image P quality calls im) = (bytes, Panicked PDebugAssert)).
Proof.
  intros quality calls color w h pl s C Hpl Hfew.
  destruct (C43_outcome_image quality calls color w h pl C Hpl (few_countable _ _ _ _ Hfew)) as [H|[N _]]; [exact H|contradiction].
Qed.

Theorem C03_outcome : forall quality calls data w h c, let s := settings_of quality calls in
  let covered := restart_covered int_dct s (spec_color c) (spec_plane c data w) w h in
  opt_any quality calls -> few_blocks s (spec_color c) w h -> (exists P, valid_input P data w h c) ->
  exists t, (forall d, accepted (tb_dc t d) /\ accepted (tb_ac t d)) /\
    forall P, valid_input P data w h c ->
      (covered \/ dbg P = false ->
         exec (run_encode P quality calls data w h c) = (jpeg_file t s (spec_color c) (spec_plane c data w) w h, Ok tt)) /\
      (~ covered -> dbg P = true ->
         exists bytes, exec (run_encode P quality calls data w h c) = (bytes, Panicked PDebugAssert)).
Proof.
  intros quality calls data w h c s covered C Hfew V.
  destruct (C43_outcome quality calls data w h c C (few_countable _ _ _ _ Hfew) V) as [H|[N _]]; [exact H|contradiction].
Qed.

(** The condition holds when there is no restart inside a scan (so C02_round_trip is a special case). *)
Theorem C03_no_restarts_covered : forall quality calls data w h c P, let s := settings_of quality calls in
  opt_any quality calls -> valid_input P data w h c -> no_restarts s (spec_color c) w h ->
  restart_covered int_dct s (spec_color c) (spec_plane c data w) w h.
Proof.
  intros quality calls data w h c P s C V Hno.
  pose proof (settings_of_wf quality calls (oa_calls _ _ C)) as Hs. pose proof (oa_huffman _ _ C) as Hopt. fold s in Hs, Hopt.
  pose proof (covered_iff s Hs Hopt default_operations fdct_pure int_dct default_op_ok fdct_is_int_dct _ _ (valid_image _ _ _ _ _ V)) as E.
  rewrite image_of_width, image_of_height, image_of_color in E. apply E.
  apply no_restarts_covered; [exact Hopt|exact (valid_image _ _ _ _ _ V)|].
  rewrite image_of_width, image_of_height, image_of_color. exact Hno.
Qed.

(** Where the condition holds the file decodes to the image, in every build. *)
Theorem C03_round_trip : forall P quality calls data w h c, let s := settings_of quality calls in
  opt_config quality calls -> valid_input P data w h c -> few_blocks s (spec_color c) w h ->
  restart_covered int_dct s (spec_color c) (spec_plane c data w) w h ->
  exists bytes j,
    exec (run_encode P quality calls data w h c) = (bytes, Ok tt) /\ Forall is_u8 bytes /\
    decode bytes = Some j /\ decoded_as s (spec_color c) w h (spec_plane c data w) j.
Proof.
  intros P quality calls data w h c s C V Hf Hcov. rewrite run_encode_eq by (apply C || assumption).
  destruct (opt_image_covered P quality calls default_operations fdct_pure int_dct (image_of P data w h c) _ C
    (vi_platform _ _ _ _ _ V) default_op_ok fdct_is_int_dct (valid_image _ _ _ _ _ V)) as (b & j & H).
  { rewrite image_of_width, image_of_height. apply (valid_fits _ _ _ _ _ V). }
  { rewrite image_of_width, image_of_height, image_of_color. exact Hf. }
  { apply (covered_iff (settings_of quality calls) (settings_of_wf quality calls (oc_calls _ _ C)) (oc_huffman _ _ C) default_operations fdct_pure int_dct default_op_ok
      fdct_is_int_dct _ _ (valid_image _ _ _ _ _ V)).
    rewrite image_of_width, image_of_height, image_of_color. exact Hcov. }
  exists b, j. rewrite image_of_width, image_of_height, image_of_color in H. exact H.
Qed.

(** A case where the condition holds although every data unit is followed by a restart, ... *)
Definition good_data : list Z := repeat 160 (16 * 8).
Example C03_covered_case : forall P, plat_ok P ->
  opt_config 90 bad_cfg /\ valid_input P good_data 16 8 Luma /\ few_blocks (settings_of 90 bad_cfg) JLuma 16 8 /\
  written_categories (coefficients_of int_dct (settings_of 90 bad_cfg) JLuma (spec_plane Luma good_data 16) 16 8)
    (frame_for (settings_of 90 bad_cfg) JLuma 16 8) 1 0 = [7; 7] /\
  counted_categories (coefficients_of int_dct (settings_of 90 bad_cfg) JLuma (spec_plane Luma good_data 16) 16 8)
    (frame_for (settings_of 90 bad_cfg) JLuma 16 8) 0 = [7; 0].
Proof.
  intros P HP. split; [apply bad_config|]. split.
  - constructor; try (vm_compute; split; discriminate); [exact HP| |vm_compute; discriminate|].
    + apply Forall_forall. intros x Hx. assert (E : forallb (fun n => (0 <=? n) && (n <? 256)) good_data = true) by (vm_compute; reflexivity).
      rewrite forallb_forall in E. specialize (E x Hx). unfold is_u8. lia.
    + destruct HP as [-> | ->]; vm_compute; reflexivity.
  - split; [apply bad_config|]. split; vm_compute; reflexivity.
Qed.
Lemma luma_covered s pl w h : let f := frame_for s JLuma w h in let cf := coefficients_of int_dct s JLuma pl w h in
  (forall k, In k (written_categories cf f (s_restart s) 0) -> In k (counted_categories cf f 0)) ->
  restart_covered int_dct s JLuma pl w h.
Proof.
  intros f cf H ci c k Hc Hk. assert (E : ci = 0%nat).
  { assert (L : length (fr_comps f) = 1%nat) by (cbn [f frame_for fr_comps]; unfold comps_of; destruct (factors (s_sampling s)); reflexivity). assert (N : (ci < 1)%nat); [|lia].
    rewrite <- L. apply nth_error_Some. unfold f. rewrite Hc. discriminate. }
  subst ci. exists 0%nat, c. split; [exact Hc|]. split; [reflexivity|]. apply H, Hk.
Qed.
Example C03_covered_case_holds : restart_covered int_dct (settings_of 90 bad_cfg) JLuma (spec_plane Luma good_data 16) 16 8.
Proof.
  apply luma_covered. change (s_restart (settings_of 90 bad_cfg)) with 1.
  destruct (C03_covered_case debug64 ltac:(now right)) as (_ & _ & _ & -> & ->). intros k [<-|[<-|[]]]; now left.
Qed.
(** ... and the image of C03_debug_panics, where it does not. *)
Theorem C03_uncovered_case : ~ restart_covered int_dct (settings_of 90 bad_cfg) JLuma (spec_plane Luma bad_data 16) 16 8.
Proof.
  intros H. destruct (H 0%nat {| co_id := 0; co_h := 1; co_v := 1; co_tq := 0 |} 8) as (cj & c' & Hj & _ & Hk).
  - reflexivity.
  - vm_compute. tauto.
  - assert (E : cj = 0%nat).
    { assert (L : length (fr_comps (frame_for (settings_of 90 bad_cfg) JLuma 16 8)) = 1%nat) by reflexivity.
      assert (N : (cj < 1)%nat); [|lia]. rewrite <- L. apply nth_error_Some. rewrite Hj. discriminate. }
    subst cj. revert Hk. vm_compute. intros [E|[E|[]]]; discriminate E.
Qed.
