(** C50: the size of the file is bounded before encoding. *)
From Verif Require Import T81 SFile SEncode SHuff SAvx2 SRestart SDecide SMax MAvx2 MWrite PAvx2 PAvxDct PSmall PRest PDecide PCount PMax
  ThmRound ThmScan ThmHuff ThmBytes ThmRestart ThmDecide ThmAvx2 ThmAll ThmWrite.
From Coq Require Import ZArith List Bool Lia.
Import ListNotations.
Open Scope Z_scope.

Lemma bounded_with s op F T P im pl bytes : settings_wf s -> op_ok op F -> transform_is F T -> plat_ok P -> image_ok im pl ->
  im_width im * im_height im < 2 ^ (ubits P - 1) ->
  (s_optimize s = true -> countable s (im_color im) (im_width im) (im_height im)) ->
  exec (encode_image_internal P op (enc_of s) im) = (bytes, Ok tt) ->
  Z.of_nat (length bytes) <= max_size s (im_color im) (im_width im) (im_height im).
Proof.
  intros Hs Hop HF HP Him Hfit Hfew E.
  destruct (written_tables s Hs op F T Hop HF P HP im pl Him Hfit Hfew bytes E) as (t & Ht & -> & _).
  destruct (dims _ _ Him) as [Hw Hh].
  apply file_length; try assumption. exact (coefficients_small s op F T im pl Hs Hop HF Him).
Qed.

(** ** C50
    A file that [encode] writes is at most [max_size] bytes long: this depends on the dimensions and the
    configuration, not on the samples. *)
Theorem C50_size : forall P quality calls data w h c bytes, valid_call P quality calls data w h c ->
  exec (run_encode P quality calls data w h c) = (bytes, Ok tt) ->
  Z.of_nat (length bytes) <= max_size (settings_of quality calls) (spec_color c) w h.
Proof.
  intros P quality calls data w h c bytes [C V Hfew] E. rewrite run_encode_eq in E by assumption.
  pose proof (bounded_with _ default_operations fdct_pure int_dct P _ _ bytes (settings_of_wf quality calls C) default_op_ok fdct_is_int_dct
    (vi_platform _ _ _ _ _ V) (valid_image _ _ _ _ _ V)) as G.
  rewrite image_of_width, image_of_height, image_of_color in G. apply G; [apply (valid_fits _ _ _ _ _ V)|exact Hfew|exact E].
Qed.
Theorem C50_size_image : forall P quality calls im pl bytes, let s := settings_of quality calls in
  let color := im_color im in let w := im_width im in let h := im_height im in
  Forall call_wf calls -> valid_buffer P im pl -> (s_optimize s = true -> countable s color w h) ->
  exec (run_encode_image P quality calls im) = (bytes, Ok tt) -> Z.of_nat (length bytes) <= max_size s color w h.
Proof.
  intros P quality calls im pl bytes s color w h C V Hfew E. rewrite run_encode_image_eq in E by assumption.
  exact (bounded_with s default_operations fdct_pure int_dct P im pl bytes (settings_of_wf quality calls C) default_op_ok fdct_is_int_dct
    (vb_platform _ _ _ V) (vb_image _ _ _ V) (vb_fits _ _ _ V) Hfew E).
Qed.
Theorem C50_size_simd : forall P quality calls data w h c bytes, valid_call P quality calls data w h c ->
  exec (run_encode_avx2 P quality calls data w h c) = (bytes, Ok tt) ->
  Z.of_nat (length bytes) <= max_size (settings_of quality calls) (spec_color c) w h.
Proof.
  intros P quality calls data w h c bytes [C V Hfew] E. rewrite run_avx2_eq in E by assumption.
  pose proof (bounded_with _ avx2_operations avx2_pure avx2_dct P _ _ bytes (settings_of_wf quality calls C) avx2_op_ok avx2_is_dct
    (vi_platform _ _ _ _ _ V) (valid_image _ _ _ _ _ V)) as G.
  rewrite image_of_width, image_of_height, image_of_color in G. apply G; [apply (valid_fits _ _ _ _ _ V)|exact Hfew|exact E].
Qed.

(** The same in round numbers: 6000 bytes, the caller's APP segments, 417 bytes for every block (those that complete
    the last MCUs included), and 4 bytes for every restart interval. *)
Theorem C50_simple : forall quality calls color w h, let s := settings_of quality calls in let f := frame_for s color w h in
  Forall call_wf calls -> 1 <= w <= 65535 -> 1 <= h <= 65535 ->
  max_size s color w h <= 6000 + fold_right Z.add 0 (map (fun a => 4 + Z.of_nat (length (snd a))) (s_segments s))
    + 417 * padded_blocks f
    + 4 * fold_right Z.add 0 (map (fun si => interval_count (s_restart s) (mcu_count f si)) (scan_script s color)).
Proof. intros quality calls color w h s f C Hw Hh. exact (simple_bound s color w h Hw Hh (settings_of_wf quality calls C)). Qed.

(** So a byte slice of that size always suffices: the call succeeds on the slice whenever it succeeds on a Vec. *)
Theorem C50_slice : forall P quality calls data w h c n, valid_call P quality calls data w h c ->
  snd (exec (run_encode P quality calls data w h c)) = Ok tt ->
  max_size (settings_of quality calls) (spec_color c) w h <= Z.of_nat n ->
  exists left, run_std slice_writer (run_encode P quality calls data w h c) ([], n)
    (fst (exec (run_encode P quality calls data w h c)), left) (fst (exec (run_encode P quality calls data w h c))) (Ok tt).
Proof.
  intros P quality calls data w h c n VC E Hn.
  pose proof (C49_slice P quality calls data w h c n) as (left & S). exists left.
  destruct (exec (run_encode P quality calls data w h c)) as [bytes o] eqn:Ex. cbn [fst snd] in *. subst o.
  pose proof (C50_size P quality calls data w h c bytes VC Ex) as L.
  assert (X : (length bytes <= n)%nat) by lia. apply Nat.leb_le in X as X'. rewrite X' in S. rewrite firstn_all2 in S by exact X. exact S.
Qed.

(** ** Concrete cases *)
(** The bound for 640 x 480 pixels, RGB at quality 60 (which means 2 x 2 sampling), default tables. *)
Example C50_case_number : max_size (settings_of 60 []) (spec_color Rgb) 640 480 = 2998301 /\ 640 * 480 * 3 = 921600.
Proof. split; vm_compute; reflexivity. Qed.
(** A grey block of 8 x 8 pixels. *)
Example C50_case_grey : max_size (settings_of 60 []) (spec_color Luma) 8 8 = 1155.
Proof. vm_compute. reflexivity. Qed.
(** The hypotheses hold for a progressive RGB image with restart intervals. *)
Example C50_case : exists bytes, exec (run_encode debug64 60 ex_cfg ex_data 3 2 Rgb) = (bytes, Ok tt) /\
  valid_call debug64 60 ex_cfg ex_data 3 2 Rgb /\ Z.of_nat (length bytes) <= max_size (settings_of 60 ex_cfg) (spec_color Rgb) 3 2.
Proof.
  assert (VC : valid_call debug64 60 ex_cfg ex_data 3 2 Rgb).
  { split; [apply ex_config|exact ex_valid|]. intros H. vm_compute in H. discriminate H. }
  assert (E : snd (exec (run_encode debug64 60 ex_cfg ex_data 3 2 Rgb)) = Ok tt) by (vm_compute; reflexivity).
  destruct (exec (run_encode debug64 60 ex_cfg ex_data 3 2 Rgb)) as [bytes o] eqn:Ex. cbn [snd] in E. subst o.
  exists bytes. split; [reflexivity|]. split; [exact VC|]. exact (C50_size debug64 60 ex_cfg ex_data 3 2 Rgb bytes VC Ex).
Qed.
