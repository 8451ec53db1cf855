(** C52: which symbols the Huffman tables of a file hold. *)
From Verif Require Import T81 SFile SEncode SHuff SAvx2 SSize SRestart SDecide SUsed MAvx2 PAvx2 PAvxDct PSmall PRest PDecide PCount PMax PUsed
  ThmRound ThmScan ThmHuff ThmBytes ThmRestart ThmDecide ThmAvx2 ThmAll.
From Coq Require Import ZArith List Bool Lia.
Import ListNotations.
Open Scope Z_scope.

Lemma exact_with s op F T P im pl bytes : settings_wf s -> op_ok op F -> transform_is F T -> plat_ok P -> image_ok im pl ->
  im_width im * im_height im < 2 ^ (ubits P - 1) ->
  (s_optimize s = true -> countable s (im_color im) (im_width im) (im_height im)) ->
  exec (encode_image_internal P op (enc_of s) im) = (bytes, Ok tt) ->
  exists t, bytes = jpeg_file_with T t s (im_color im) pl (im_width im) (im_height im) /\
    symbols_exact T t s (im_color im) pl (im_width im) (im_height im).
Proof.
  intros Hs Hop HF HP Him Hfit Hfew E.
  destruct (used_tables s Hs op F T Hop HF P HP im pl Him Hfit Hfew bytes E) as (t & -> & Hp & Hx & Ha).
  destruct (dims _ _ Him) as [Hw Hh].
  exists t. split; [reflexivity|]. split; [exact Hp|]. split; [intros d Hd; exact (proper_sizes t _ d Hp Hd)|]. split; [exact Ha|].
  intros O d Hd. destruct (Hx O d Hd) as [H1 H2]. split; [exact H2|]. split; [exact H1|].
  intros Hno v. rewrite H1. apply counted_occurs; [apply Hw|apply Hh|exact Hno].
Qed.

(** ** C52 *)
Theorem C52_tables : forall P quality calls data w h c bytes, valid_call P quality calls data w h c ->
  exec (run_encode P quality calls data w h c) = (bytes, Ok tt) ->
  let s := settings_of quality calls in let pl := spec_plane c data w in
  exists t, bytes = jpeg_file t s (spec_color c) pl w h /\ symbols_exact int_dct t s (spec_color c) pl w h.
Proof.
  intros P quality calls data w h c bytes [C V Hfew] E. rewrite run_encode_eq in E by assumption.
  pose proof (exact_with _ default_operations fdct_pure int_dct P _ _ bytes (settings_of_wf quality calls C) default_op_ok fdct_is_int_dct
    (vi_platform _ _ _ _ _ V) (valid_image _ _ _ _ _ V)) as G.
  rewrite image_of_width, image_of_height, image_of_color in G. apply G; [apply (valid_fits _ _ _ _ _ V)|exact Hfew|exact E].
Qed.
Theorem C52_tables_image : forall P quality calls im pl bytes, let s := settings_of quality calls in
  let color := im_color im in let w := im_width im in let h := im_height im in
  Forall call_wf calls -> valid_buffer P im pl -> (s_optimize s = true -> countable s color w h) ->
  exec (run_encode_image P quality calls im) = (bytes, Ok tt) ->
  exists t, bytes = jpeg_file t s color pl w h /\ symbols_exact int_dct t s color pl w h.
Proof.
  intros P quality calls im pl bytes s color w h C V Hfew E. rewrite run_encode_image_eq in E by assumption.
  exact (exact_with s default_operations fdct_pure int_dct P im pl bytes (settings_of_wf quality calls C) default_op_ok fdct_is_int_dct
    (vb_platform _ _ _ V) (vb_image _ _ _ V) (vb_fits _ _ _ V) Hfew E).
Qed.
Theorem C52_tables_simd : forall P quality calls data w h c bytes, valid_call P quality calls data w h c ->
  exec (run_encode_avx2 P quality calls data w h c) = (bytes, Ok tt) ->
  let s := settings_of quality calls in let pl := spec_plane c data w in
  exists t, bytes = jpeg_file_with avx2_dct t s (spec_color c) pl w h /\ symbols_exact avx2_dct t s (spec_color c) pl w h.
Proof.
  intros P quality calls data w h c bytes [C V Hfew] E. rewrite run_avx2_eq in E by assumption.
  pose proof (exact_with _ avx2_operations avx2_pure avx2_dct P _ _ bytes (settings_of_wf quality calls C) avx2_op_ok avx2_is_dct
    (vi_platform _ _ _ _ _ V) (valid_image _ _ _ _ _ V)) as G.
  rewrite image_of_width, image_of_height, image_of_color in G. apply G; [apply (valid_fits _ _ _ _ _ V)|exact Hfew|exact E].
Qed.

(** ** Concrete case: an RGB image with optimized tables. *)
Example C52_case : exists bytes t, let s := settings_of 60 opt_cfg in
  exec (run_encode debug64 60 opt_cfg ex_data 3 2 Rgb) = (bytes, Ok tt) /\
  valid_call debug64 60 opt_cfg ex_data 3 2 Rgb /\ s_optimize s = true /\ no_restarts s JYcbcr 3 2 /\
  bytes = jpeg_file t s JYcbcr (spec_plane Rgb ex_data 3) 3 2.
Proof.
  assert (VC : valid_call debug64 60 opt_cfg ex_data 3 2 Rgb).
  { split; [apply (oc_calls _ _ (proj1 C02_config))|exact ex_valid|]. intros _. apply C02_config. }
  assert (E : snd (exec (run_encode debug64 60 opt_cfg ex_data 3 2 Rgb)) = Ok tt) by (vm_compute; reflexivity).
  destruct (exec (run_encode debug64 60 opt_cfg ex_data 3 2 Rgb)) as [bytes o] eqn:Ex. cbn [snd] in E. subst o.
  destruct (C52_tables debug64 60 opt_cfg ex_data 3 2 Rgb bytes VC Ex) as (t & Et & _). exists bytes, t.
  split; [reflexivity|]. split; [exact VC|]. split; [reflexivity|]. split; [left; reflexivity|exact Et].
Qed.
