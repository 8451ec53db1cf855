(** C70: the optimized tables are those that the procedure of T.81 Annex K.2 makes, and with them the bytes of every file are
    determined. *)
From Verif Require Import T81 SFile SEncode SHuff SAvx2 SSize SRestart SDecide SUsed SAnnexK2 MAvx2 PAvx2 PAvxDct PLimit PSmall PRest PDecide PCount PMax PUsed
  PAnnexK2 PAnnexK2F ThmRound ThmScan ThmHuff ThmBytes ThmRestart ThmDecide ThmAvx2 ThmAll ThmUsed.
From Coq Require Import ZArith List Bool Lia.
Import ListNotations.
Open Scope Z_scope.

(** ** One table *)
Theorem C70_tables : forall P hist t,
  histogram hist -> total_count hist < 2 ^ 32 -> (symbol_count hist <= 255)%nat ->
  exec (new_optimized P hist) = ([], Ok t) -> (h_length t, h_values t) = annexK2_table hist.
Proof.
  intros P hist t [Hl Hc Hr Hu] Ht Hs E.
  assert (Hn : forall s, 0 <= nth s hist 0).
  { intros s. destruct (Nat.lt_ge_cases s (length hist)) as [H|H]; [|rewrite nth_overflow by exact H; lia].
    rewrite Forall_forall in Hc. apply (Hc (nth s hist 0)), nth_In, H. }
  assert (H1 : (1 <= length (used hist) <= 254)%nat).
  { rewrite (used_count hist Hl Hr) in Hs. split; [|lia]. destruct Hu as (v & Hv). apply used_occurs in Hv.
    destruct (used hist); [destruct Hv|cbn [length]; lia]. }
  symmetry. exact (optimized_is_annexK2 hist Hl Hn Ht ltac:(lia) H1 P t E).
Qed.
(** The hypotheses hold of the histogram of C44_example (73 occurrences of five symbols and the reserved one), ... *)
Example C70_case : histogram five /\ annexK2_table five = ([1; 1; 1; 1; 1] ++ repeat 0 11, [0; 5; 3; 1; 4]).
Proof.
  destruct C44_example as (H1 & H2 & H3 & _). split; [exact H1|].
  assert (X : exists t, exec (new_optimized debug64 five) = ([], Ok t) /\ (h_length t, h_values t) = ([1; 1; 1; 1; 1] ++ repeat 0 11, [0; 5; 3; 1; 4])).
  { eexists. split; vm_compute; reflexivity. }
  destruct X as (t & E & <-). symmetry. apply (C70_tables debug64); [exact H1|rewrite H2; reflexivity|rewrite H3; lia|exact E].
Qed.
(** ... and of one of which 33 symbols get codes that have to be limited to 16 bits. *)
Example C70_case_limited : histogram skewed /\ fst (annexK2_table skewed) = [1; 1; 1; 1; 1; 1; 1; 1; 1; 1; 1; 0; 1; 1; 0; 19].
Proof.
  destruct C20_example as (H1 & H2 & H3). split; [exact H1|]. destruct (C20_example_lengths debug64) as (t & E & <-).
  rewrite <- (C70_tables debug64 skewed t); [reflexivity|exact H1|rewrite H2; reflexivity|rewrite H3; lia|exact E].
Qed.

(** ** Only the tables in use count *)
Lemma encode_units_tables dc ac dc' ac' ss se cf : (forall ci, dc ci = dc' ci) -> (forall ci, ac ci = ac' ci) ->
  forall us p, encode_units dc ac ss se cf p us = encode_units dc' ac' ss se cf p us.
Proof.
  intros Hd Ha. induction us as [|[[ci y] x] us IH]; intros p; [reflexivity|]. cbn [encode_units]. now rewrite Hd, Ha, IH.
Qed.
Lemma tq_in_use s color w h c : In c (fr_comps (frame_for s color w h)) -> In (co_tq c) (destinations (frame_for s color w h)).
Proof.
  unfold destinations, frame_for. cbn [fr_comps]. unfold comps_of. destruct (factors (s_sampling s)) as [a b].
  destruct color; cbn [length Nat.leb In]; intros H; repeat destruct H as [<-|H]; cbn [co_tq]; try tauto; destruct H.
Qed.
Lemma same_tables T t t' s color pl w h :
  (forall d, In d (destinations (frame_for s color w h)) -> tb_dc t d = tb_dc t' d /\ tb_ac t d = tb_ac t' d) ->
  jpeg_file_with T t s color pl w h = jpeg_file_with T t' s color pl w h.
Proof.
  intros H. unfold jpeg_file_with. cbv zeta. set (f := frame_for s color w h) in *. f_equal. unfold file_parts.
  assert (C : forall ci, comp_table f (tb_dc t) ci = comp_table f (tb_dc t') ci /\ comp_table f (tb_ac t) ci = comp_table f (tb_ac t') ci).
  { intros ci. unfold comp_table. destruct (nth_error (fr_comps f) ci) as [c|] eqn:E; [|now split].
    apply nth_error_In in E. apply tq_in_use in E. destruct (H _ E) as [-> ->]. now split. }
  assert (D0 : In 0 (destinations f)) by (unfold destinations; destruct (3 <=? length (fr_comps f))%nat; now left).
  destruct (H 0 D0) as [-> ->]. f_equal. f_equal. f_equal.
  - destruct (3 <=? length (fr_comps f))%nat eqn:E; [|reflexivity].
    assert (D1 : In 1 (destinations f)) by (unfold destinations; rewrite E; right; now left).
    destruct (H 1 D1) as [-> ->]. reflexivity.
  - f_equal. apply map_ext. intros si. f_equal. unfold scan_data. apply map_ext. intros mcus. f_equal.
    apply encode_units_tables; intros ci; apply C.
Qed.

(** ** The bytes of every file *)
Lemma bytes_with s op F T P im pl bytes : settings_wf s -> op_ok op F -> transform_is F T -> plat_ok P -> image_ok im pl ->
  im_width im * im_height im < 2 ^ (ubits P - 1) ->
  (s_optimize s = true -> countable s (im_color im) (im_width im) (im_height im)) ->
  exec (encode_image_internal P op (enc_of s) im) = (bytes, Ok tt) ->
  bytes = jpeg_file_with T (file_tables T s (im_color im) pl (im_width im) (im_height im)) s (im_color im) pl (im_width im) (im_height im).
Proof.
  intros Hs Hop HF HP Him Hfit Hfew E. unfold file_tables. destruct (s_optimize s) eqn:O.
  - destruct (opt_tables_done s Hs O op F Hop P im pl bytes HP Him Hfit (Hfew eq_refl) E) as (d0 & a0 & d1 & a1 & bd0 & ba0 & bd1 & ba1 & Ht).
    rewrite <- (same_tables T (tables_of d0 a0 d1 a1) _ s (im_color im) pl (im_width im) (im_height im)
      (tables_are s Hs O op F T Hop HF im pl Him (Hfew eq_refl) _ _ _ _ _ _ _ _ Ht)).
    assert (D : dc_written s F P im pl d0 d1 bd0 bd1).
    { destruct (dbg P) eqn:Hd.
      - destruct (covered_dec T s (im_color im) pl (im_width im) (im_height im)) as [C|C];
          rewrite <- (covered_iff s Hs O op F T Hop HF im pl Him) in C.
        + exact (covered_written s F P im pl _ _ _ _ _ _ _ _ Ht C).
        + exfalso. destruct (debug_panics s Hs O op F T Hop HF im pl Him (Hfew eq_refl) P HP Hfit Hd _ _ _ _ _ _ _ _ Ht C) as (b & X).
          rewrite X in E. discriminate E.
      - exact (release_written s Hs O op F Hop im pl Him (Hfew eq_refl) P _ _ _ _ _ _ _ _ Hd Ht). }
    pose proof (opt_bytes_written s Hs O op F T Hop HF P im pl _ _ _ _ _ _ _ _ HP Him Hfit Ht D) as W.
    unfold emits in W. rewrite W in E. injection E as <-. reflexivity.
  - pose proof (std_bytes_with P HP s Hs O op F T im pl Hop HF Him Hfit) as W.
    unfold emits in W. rewrite W in E. injection E as <-. reflexivity.
Qed.

(** A valid call that returns Ok has written exactly these bytes: the file of T.81 with the tables of Annex K.2 for this image
    (optimized) or the ones of Annex K.3. *)
Theorem C70_bytes : forall P quality calls data w h c bytes, valid_call P quality calls data w h c ->
  exec (run_encode P quality calls data w h c) = (bytes, Ok tt) ->
  let s := settings_of quality calls in let pl := spec_plane c data w in
  bytes = jpeg_file (file_tables int_dct s (spec_color c) pl w h) s (spec_color c) pl w h.
Proof.
  intros P quality calls data w h c bytes [C V Hfew] E. rewrite run_encode_eq in E by assumption.
  pose proof (bytes_with _ default_operations fdct_pure int_dct P _ _ bytes (settings_of_wf quality calls C) default_op_ok fdct_is_int_dct
    (vi_platform _ _ _ _ _ V) (valid_image _ _ _ _ _ V)) as G.
  rewrite image_of_width, image_of_height, image_of_color in G. apply G; [apply (valid_fits _ _ _ _ _ V)|exact Hfew|exact E].
Qed.
Theorem C70_bytes_image : forall P quality calls im pl bytes, let s := settings_of quality calls in
  let color := im_color im in let w := im_width im in let h := im_height im in
  Forall call_wf calls -> valid_buffer P im pl -> (s_optimize s = true -> countable s color w h) ->
  exec (run_encode_image P quality calls im) = (bytes, Ok tt) ->
  bytes = jpeg_file (file_tables int_dct s color pl w h) s color pl w h.
Proof.
  intros P quality calls im pl bytes s color w h C V Hfew E. rewrite run_encode_image_eq in E by assumption.
  exact (bytes_with s default_operations fdct_pure int_dct P im pl bytes (settings_of_wf quality calls C) default_op_ok fdct_is_int_dct
    (vb_platform _ _ _ V) (vb_image _ _ _ V) (vb_fits _ _ _ V) Hfew E).
Qed.
Theorem C70_bytes_simd : forall P quality calls data w h c bytes, valid_call P quality calls data w h c ->
  exec (run_encode_avx2 P quality calls data w h c) = (bytes, Ok tt) ->
  let s := settings_of quality calls in let pl := spec_plane c data w in
  bytes = jpeg_file_with avx2_dct (file_tables avx2_dct s (spec_color c) pl w h) s (spec_color c) pl w h.
Proof.
  intros P quality calls data w h c bytes [C V Hfew] E. rewrite run_avx2_eq in E by assumption.
  pose proof (bytes_with _ avx2_operations avx2_pure avx2_dct P _ _ bytes (settings_of_wf quality calls C) avx2_op_ok avx2_is_dct
    (vi_platform _ _ _ _ _ V) (valid_image _ _ _ _ _ V)) as G.
  rewrite image_of_width, image_of_height, image_of_color in G. apply G; [apply (valid_fits _ _ _ _ _ V)|exact Hfew|exact E].
Qed.
(** Up to 146,467 data units and without a restart within a scan the call does return Ok. *)
Theorem C70_bytes_optimized : forall P quality calls data w h c, let s := settings_of quality calls in let pl := spec_plane c data w in
  opt_any quality calls -> few_blocks s (spec_color c) w h -> no_restarts s (spec_color c) w h -> valid_input P data w h c ->
  exec (run_encode P quality calls data w h c)
  = (jpeg_file (optimized_tables int_dct s (spec_color c) pl w h) s (spec_color c) pl w h, Ok tt).
Proof.
  intros P quality calls data w h c s pl C Hfew Hno V.
  destruct (C40_exact_bytes_optimized quality calls data w h c C Hfew Hno (ex_intro _ P V)) as (t & _ & Ht). specialize (Ht P V).
  pose proof (C70_bytes P quality calls data w h c _ ltac:(split; [apply C|exact V|intros _; unfold countable, few_blocks in *; fold s; lia]) Ht) as E.
  rewrite Ht. f_equal. cbv zeta in E. unfold file_tables in E. rewrite (oa_huffman _ _ C) in E. exact E.
Qed.
(** A colour image with optimized tables meets the hypotheses. *)
Example C70_case_file : opt_any 60 opt_cfg /\ few_blocks (settings_of 60 opt_cfg) JYcbcr 3 2 /\ no_restarts (settings_of 60 opt_cfg) JYcbcr 3 2 /\
  valid_input debug64 ex_data 3 2 Rgb.
Proof.
  split; [split; [apply (oc_calls _ _ (proj1 C02_config))|reflexivity]|]. split; [vm_compute; reflexivity|]. split; [left; reflexivity|exact ex_valid].
Qed.
