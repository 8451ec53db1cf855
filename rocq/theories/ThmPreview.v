(** C48: a file cut off after any of its scans is a valid file again, with exactly the coefficients of the
    scans that are left; low frequencies come first. *)
From Verif Require Import T81 SFile SEncode SHuff SAvx2 SRestart SDecide SPreview MAvx2 PAvx2 PAvxDct PRest PDecide PCount PPrefix
  ThmRound ThmScan ThmHuff ThmBytes ThmRestart ThmDecide ThmAvx2 ThmAll.
From Coq Require Import ZArith List Bool Lia.
Import ListNotations.
Open Scope Z_scope.

(** The call reports success, and the file can be cut off after any number of scans. *)
Definition previews (T : transform) (s : settings) (color : jcolor) (w h : Z) (pl : planes) (outcome : list Z * outcome unit) : Prop :=
  exists bytes header scans, outcome = (bytes, Ok tt) /\ scans_at bytes header scans /\
    length scans = length (scan_script s color) /\
    forall n, (n <= length scans)%nat ->
      exists j, decode (header ++ concat (firstn n scans) ++ [255; 217]) = Some j /\ preview_with T s color w h pl n j.

Lemma previews_with s op F T P im pl : settings_wf s -> op_ok op F -> transform_is F T -> plat_ok P -> image_ok im pl ->
  im_width im * im_height im < 2 ^ (ubits P - 1) ->
  (s_optimize s = true -> countable s (im_color im) (im_width im) (im_height im)) -> tables_generated s (im_color im) (im_width im) (im_height im) (encode_image_internal P op (enc_of s) im) ->
  representable T s (im_color im) pl (im_width im) (im_height im) ->
  previews T s (im_color im) (im_width im) (im_height im) pl (exec (encode_image_internal P op (enc_of s) im)).
Proof.
  intros Hs Hop HF HP Him Hfit Hfew Gn R.
  pose proof (proj2 (gives_with s op F T P im pl Hs Hop HF HP Him Hfit Hfew Gn) R) as (bytes & j & E & D & A).
  destruct (written_tables s Hs op F T Hop HF P HP im pl Him Hfit Hfew bytes E) as (t & Ht & Eb & _). subst bytes.
  destruct (dims _ _ Him) as [Hw Hh].
  eexists. exists (the_header t s (im_color im) (im_width im) (im_height im)), (the_scans T t s (im_color im) pl (im_width im) (im_height im)).
  split; [exact E|]. split; [apply whole|]. split; [apply map_length|].
  intros n Hn. apply (prefix_decodes T t s (im_color im) pl (im_width im) (im_height im) Hw Hh Ht (apps_wf s _ Hs) (sw_scans _ Hs) j D A n Hn).
Qed.

(** ** C48 *)
Theorem C48_preview : forall P quality calls data w h c, let s := settings_of quality calls in
  valid_call P quality calls data w h c -> generated P quality calls data w h c -> representable int_dct s (spec_color c) (spec_plane c data w) w h ->
  previews int_dct s (spec_color c) w h (spec_plane c data w) (exec (run_encode P quality calls data w h c)).
Proof.
  intros P quality calls data w h c s [C V Hfew] Gn R. unfold tables_generated in Gn. rewrite run_encode_eq in * by assumption. fold s in Gn |- *.
  pose proof (previews_with s default_operations fdct_pure int_dct P _ _ (settings_of_wf quality calls C) default_op_ok fdct_is_int_dct
    (vi_platform _ _ _ _ _ V) (valid_image _ _ _ _ _ V)) as G.
  rewrite image_of_width, image_of_height, image_of_color in G. apply G; [apply (valid_fits _ _ _ _ _ V)|exact Hfew|exact Gn|exact R].
Qed.
Theorem C48_preview_image : forall P quality calls im pl, let s := settings_of quality calls in
  let color := im_color im in let w := im_width im in let h := im_height im in
  Forall call_wf calls -> valid_buffer P im pl -> (s_optimize s = true -> countable s color w h) -> tables_generated s color w h (run_encode_image P quality calls im) -> representable int_dct s color pl w h ->
  previews int_dct s color w h pl (exec (run_encode_image P quality calls im)).
Proof.
  intros P quality calls im pl s color w h C V Hfew Gn R. unfold tables_generated in Gn. rewrite run_encode_image_eq in * by assumption. fold s in Gn |- *.
  exact (previews_with s default_operations fdct_pure int_dct P im pl (settings_of_wf quality calls C) default_op_ok fdct_is_int_dct
    (vb_platform _ _ _ V) (vb_image _ _ _ V) (vb_fits _ _ _ V) Hfew Gn R).
Qed.
Theorem C48_preview_simd : forall P quality calls data w h c, let s := settings_of quality calls in
  valid_call P quality calls data w h c -> generated_simd P quality calls data w h c -> representable avx2_dct s (spec_color c) (spec_plane c data w) w h ->
  previews avx2_dct s (spec_color c) w h (spec_plane c data w) (exec (run_encode_avx2 P quality calls data w h c)).
Proof.
  intros P quality calls data w h c s [C V Hfew] Gn R. unfold tables_generated in Gn. rewrite run_avx2_eq in * by assumption. fold s in Gn |- *.
  pose proof (previews_with s avx2_operations avx2_pure avx2_dct P _ _ (settings_of_wf quality calls C) avx2_op_ok avx2_is_dct
    (vi_platform _ _ _ _ _ V) (valid_image _ _ _ _ _ V)) as G.
  rewrite image_of_width, image_of_height, image_of_color in G. apply G; [apply (valid_fits _ _ _ _ _ V)|exact Hfew|exact Gn|exact R].
Qed.

(** Low frequencies come first: wherever the file is cut off, if some coefficient of a component is there then
    so are all the coefficients of lower frequency of that component, in all blocks. *)
Theorem C48_low_frequencies_first : forall quality calls color w h pl n j, let s := settings_of quality calls in
  Forall call_wf calls -> preview_with int_dct s color w h pl n j ->
  forall ci c k k' y x y' x', nth_error (comps_of (s_sampling s) color) ci = Some c -> 0 <= k <= k' -> k' < 64 ->
    0 <= y < blocks_high (j_frame j) c -> 0 <= x < blocks_wide (j_frame j) c ->
    coef j ci y' x' k' <> None -> coef j ci y x k = Some (expected int_dct s color pl w h ci c y x k).
Proof.
  intros quality calls color w h pl n j s C A ci c k k' y x y' x' Hc Hk Hk' Hy Hx Hsome.
  apply (pv_coef _ _ _ _ _ _ _ _ A ci c y x k Hc Hy Hx ltac:(lia)).
  apply (low_first s color n ci k k'); try assumption.
  - apply nth_error_Some. rewrite Hc. discriminate.
  - exact (sw_scans _ (settings_of_wf quality calls C)).
  - destruct (Exists_dec (carries ci k') (firstn n (scan_script s color))) as [X|X].
    + intros si. destruct (carriesb ci k' si) eqn:E; [left; now apply carriesb_iff|right; intros Y; apply carriesb_iff in Y; congruence].
    + exact X.
    + destruct Hsome. exact (pv_missing _ _ _ _ _ _ _ _ A ci y' x' k' X).
Qed.

(** A progressive file cut off after one scan per component has exactly the DC coefficients: an image of an
    eighth of the size. *)
Theorem C48_dc_first : forall quality calls color w h pl n j, let s := settings_of quality calls in
  s_scans s = Some n -> preview_with int_dct s color w h pl (length (comps_of (s_sampling s) color)) j ->
  forall ci c y x, nth_error (comps_of (s_sampling s) color) ci = Some c ->
    0 <= y < blocks_high (j_frame j) c -> 0 <= x < blocks_wide (j_frame j) c ->
    coef j ci y x 0 = Some (expected int_dct s color pl w h ci c y x 0) /\ forall k, 1 <= k -> coef j ci y x k = None.
Proof.
  intros quality calls color w h pl n j s Hn A ci c y x Hc Hy Hx. split.
  - apply (pv_coef _ _ _ _ _ _ _ _ A ci c y x 0 Hc Hy Hx ltac:(lia)). rewrite (after_dc s color n Hn).
    apply Exists_exists. exists {| si_comps := [ci]; si_ss := 0; si_se := 0 |}. split.
    + apply in_map_iff. exists ci. split; [reflexivity|]. apply in_seq.
      assert (ci < length (comps_of (s_sampling s) color))%nat by (apply nth_error_Some; rewrite Hc; discriminate). lia.
    + split; cbn [si_comps si_ss si_se]; [now left|lia].
  - intros k Hk. apply (pv_missing _ _ _ _ _ _ _ _ A). rewrite (after_dc s color n Hn). intros X.
    apply Exists_exists in X as (si & Hsi & _ & Hr). apply in_singles in Hsi as (i & _ & ->). cbn [si_ss si_se snd] in Hr. lia.
Qed.

(** ** A concrete case: 3 x 2 pixels, 4:2:0, four scans per component and restart markers: 12 scans; coefficient
    40 of the last component is there from the ninth scan on. *)
Example C48_case : valid_call debug64 60 ex_cfg ex_data 3 2 Rgb /\
  representable int_dct (settings_of 60 ex_cfg) JYcbcr (spec_plane Rgb ex_data 3) 3 2 /\
  length (scan_script (settings_of 60 ex_cfg) JYcbcr) = 12%nat /\
  forall n, Exists (carries 2 40) (firstn n (scan_script (settings_of 60 ex_cfg) JYcbcr)) <-> (9 <= n)%nat.
Proof.
  split; [|split; [|split; [reflexivity|]]].
  - constructor; [apply ex_config|exact ex_valid|discriminate].
  - split; [split|split].
    + intros c i Hc Hi.
      assert (Q : forall d, d = 0 \/ d = 1 -> quantizer (settings_of 60 ex_cfg) d i <= 255).
      { intros d [-> | ->].
        - pose proof (below64 (fun i => quantizer (settings_of 60 ex_cfg) 0 i <=? 255) ltac:(vm_compute; reflexivity) i Hi). cbv beta in *. lia.
        - pose proof (below64 (fun i => quantizer (settings_of 60 ex_cfg) 1 i <=? 255) ltac:(vm_compute; reflexivity) i Hi). cbv beta in *. lia. }
      apply Q. destruct Hc as [<-|[<-|[<-|[]]]]; cbn [co_tq]; auto.
    + intros i Hi.
      pose proof (below64 (fun i => negb (quantizer (settings_of 60 ex_cfg) 1 i mod 256 =? 0)) ltac:(vm_compute; reflexivity) i Hi). cbv beta in *. lia.
    + vm_compute. discriminate.
    + discriminate.
  - assert (E : forall l, Exists (carries 2 40) l <-> existsb (carriesb 2 40) l = true).
    { intros l. rewrite Exists_exists, existsb_exists. split; intros (x & Hx & H); exists x; (split; [exact Hx|now apply carriesb_iff]). }
    intros n. rewrite E. clear E. destruct (le_lt_dec n 12) as [H|H].
    + do 13 (destruct n as [|n]; [vm_compute; split; intros X; (lia || discriminate || reflexivity)|]). lia.
    + rewrite firstn_all2 by (change (length (scan_script (settings_of 60 ex_cfg) JYcbcr)) with 12%nat; lia).
      vm_compute (existsb _ _). split; [lia|reflexivity].
Qed.
