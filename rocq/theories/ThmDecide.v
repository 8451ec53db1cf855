(** Which calls give a file that decodes to the image: exactly those with a representable image and
    configuration (SDecide.v). *)
From Verif Require Import T81 SFile SEncode SHuff SAvx2 SRestart SDecide MAvx2 PAvx2 PAvxDct PRest PDecide PCount
  ThmRound ThmScan ThmHuff ThmBytes ThmRestart ThmAvx2.
From Coq Require Import ZArith List Bool Lia.
Import ListNotations.
Open Scope Z_scope.

(** The call reports success and the bytes decode to the image with these settings. *)
Definition gives (T : transform) (s : settings) (color : jcolor) (w h : Z) (pl : planes) (outcome : list Z * outcome unit) : Prop :=
  exists bytes j, outcome = (bytes, Ok tt) /\ decode bytes = Some j /\ decoded_with T s color w h pl j.

Lemma gives_with s op F T P im pl : settings_wf s -> op_ok op F -> transform_is F T -> plat_ok P -> image_ok im pl ->
  im_width im * im_height im < 2 ^ (ubits P - 1) ->
  (s_optimize s = true -> countable s (im_color im) (im_width im) (im_height im)) ->
  tables_generated s (im_color im) (im_width im) (im_height im) (encode_image_internal P op (enc_of s) im) ->
  gives T s (im_color im) (im_width im) (im_height im) pl (exec (encode_image_internal P op (enc_of s) im)) <->
  representable T s (im_color im) pl (im_width im) (im_height im).
Proof.
  intros Hs Hop HF HP Him Hfit Hc Hg. split.
  - intros (bytes & j & E & D & A). exact (came_back s Hs op F T Hop HF P HP im pl Him Hfit Hc bytes j E D A).
  - intros R. destruct (representable_back op F T Hop HF P HP im pl Him Hfit s Hs) as (bytes & E & _ & j & D & A).
    + intros O. split; [exact (Hc O)|]. exact (generated_tables s Hs O op F Hop P im pl HP Him Hfit (Hc O) Hg).
    + exact R.
    + exists bytes, j. split; [exact E|]. split; [exact D|exact A].
Qed.

(** [countable]: the symbols of a table are counted in 32 bits (63 symbols per data unit, so at most 68,174,084
    data units). [tables_generated]: the image has at most 146,467 data units or this call does not end in
    the index panic of the table construction (C43, C47); both only matter for optimized tables. *)
(** ** C46 *)
Theorem C46_decodes_iff : forall P quality calls data w h c, let s := settings_of quality calls in
  Forall call_wf calls -> valid_input P data w h c -> (s_optimize s = true -> countable s (spec_color c) w h) ->
  tables_generated s (spec_color c) w h (run_encode P quality calls data w h c) ->
  gives int_dct s (spec_color c) w h (spec_plane c data w) (exec (run_encode P quality calls data w h c)) <->
  representable int_dct s (spec_color c) (spec_plane c data w) w h.
Proof.
  intros P quality calls data w h c s C V Hc Hg. unfold tables_generated in *. rewrite run_encode_eq in * by assumption. fold s in Hg |- *.
  pose proof (gives_with s default_operations fdct_pure int_dct P _ _ (settings_of_wf quality calls C) default_op_ok fdct_is_int_dct
    (vi_platform _ _ _ _ _ V) (valid_image _ _ _ _ _ V)) as G.
  rewrite image_of_width, image_of_height, image_of_color in G. apply G; [apply (valid_fits _ _ _ _ _ V)|exact Hc|exact Hg].
Qed.
Theorem C46_decodes_iff_image : forall P quality calls im pl, let s := settings_of quality calls in
  let color := im_color im in let w := im_width im in let h := im_height im in
  Forall call_wf calls -> valid_buffer P im pl -> (s_optimize s = true -> countable s color w h) ->
  tables_generated s color w h (run_encode_image P quality calls im) ->
  gives int_dct s color w h pl (exec (run_encode_image P quality calls im)) <-> representable int_dct s color pl w h.
Proof.
  intros P quality calls im pl s color w h C V Hc Hg. unfold tables_generated in Hg. rewrite run_encode_image_eq in * by assumption. fold s in Hg |- *.
  exact (gives_with s default_operations fdct_pure int_dct P im pl (settings_of_wf quality calls C) default_op_ok fdct_is_int_dct
    (vb_platform _ _ _ V) (vb_image _ _ _ V) (vb_fits _ _ _ V) Hc Hg).
Qed.
(** Only representable images come back, without the condition on the Huffman tables. *)
Theorem C46_representable : forall P quality calls data w h c, let s := settings_of quality calls in
  Forall call_wf calls -> valid_input P data w h c -> (s_optimize s = true -> countable s (spec_color c) w h) ->
  gives int_dct s (spec_color c) w h (spec_plane c data w) (exec (run_encode P quality calls data w h c)) ->
  representable int_dct s (spec_color c) (spec_plane c data w) w h.
Proof.
  intros P quality calls data w h c s C V Hc G. apply (C46_decodes_iff P quality calls data w h c C V Hc); [|exact G].
  intros _. right. destruct G as (bytes & j & E & _). rewrite E. discriminate.
Qed.
(** With the simd feature, the same with its transform. *)
Theorem C46_decodes_iff_simd : forall P quality calls data w h c, let s := settings_of quality calls in
  Forall call_wf calls -> valid_input P data w h c -> (s_optimize s = true -> countable s (spec_color c) w h) ->
  tables_generated s (spec_color c) w h (run_encode_avx2 P quality calls data w h c) ->
  gives avx2_dct s (spec_color c) w h (spec_plane c data w) (exec (run_encode_avx2 P quality calls data w h c)) <->
  representable avx2_dct s (spec_color c) (spec_plane c data w) w h.
Proof.
  intros P quality calls data w h c s C V Hc Hg. unfold tables_generated in *. rewrite run_avx2_eq in * by assumption. fold s in Hg |- *.
  pose proof (gives_with s avx2_operations avx2_pure avx2_dct P _ _ (settings_of_wf quality calls C) avx2_op_ok avx2_is_dct
    (vi_platform _ _ _ _ _ V) (valid_image _ _ _ _ _ V)) as G.
  rewrite image_of_width, image_of_height, image_of_color in G. apply G; [apply (valid_fits _ _ _ _ _ V)|exact Hc|exact Hg].
Qed.

(** ** C28, in general: with 34 to 64 scans no file is valid, whatever the image and the other settings. *)
Theorem C28_never_valid : forall P quality calls data w h c n bytes, let s := settings_of quality calls in
  Forall call_wf calls -> valid_input P data w h c -> (s_optimize s = true -> countable s (spec_color c) w h) ->
  s_scans s = Some n -> 34 <= n ->
  exec (run_encode P quality calls data w h c) = (bytes, Ok tt) -> decode bytes = None.
Proof.
  intros P quality calls data w h c n bytes s C V Hfew Hn Hn34. rewrite run_encode_eq by assumption. fold s. intros E.
  pose proof (settings_of_wf quality calls C) as Hs. pose proof (valid_image _ _ _ _ _ V) as Him.
  assert (Hfit : im_width (image_of P data w h c) * im_height (image_of P data w h c) < 2 ^ (ubits P - 1)).
  { rewrite image_of_width, image_of_height. apply (valid_fits _ _ _ _ _ V). }
  assert (Hfew' : s_optimize s = true -> countable s (im_color (image_of P data w h c)) (im_width (image_of P data w h c)) (im_height (image_of P data w h c))).
  { rewrite image_of_width, image_of_height, image_of_color. exact Hfew. }
  destruct (written_tables s Hs default_operations fdct_pure int_dct default_op_ok fdct_is_int_dct P (vi_platform _ _ _ _ _ V) _ _ Him Hfit Hfew' bytes E)
    as (t & Ht & -> & _).
  eapply many_scans; eassumption.
Qed.
(** With the standard Huffman tables such a call always reports success. *)
Theorem C28_reports_success : forall P quality calls data w h c n, let s := settings_of quality calls in
  Forall call_wf calls -> valid_input P data w h c -> s_optimize s = false -> s_scans s = Some n -> 34 <= n ->
  exists bytes, exec (run_encode P quality calls data w h c) = (bytes, Ok tt) /\ decode bytes = None.
Proof.
  intros P quality calls data w h c n s C V O Hn Hn34.
  pose proof (C40_exact_bytes P quality calls data w h c C O V) as E. eexists. split; [exact E|].
  apply (C28_never_valid P quality calls data w h c n _ C V) in E; try assumption.
  intros O'. fold s in O'. congruence.
Qed.

(** ** C03: without the condition, a build without debug assertions reports success and the file does not
    decode to the image. *)
Theorem C03_undecodable : forall P quality calls data w h c, let s := settings_of quality calls in
  opt_any quality calls -> few_blocks s (spec_color c) w h -> valid_input P data w h c ->
  ~ restart_covered int_dct s (spec_color c) (spec_plane c data w) w h -> dbg P = false ->
  exists bytes, exec (run_encode P quality calls data w h c) = (bytes, Ok tt) /\
    forall j, decode bytes = Some j -> ~ decoded_as s (spec_color c) w h (spec_plane c data w) j.
Proof.
  intros P quality calls data w h c s C Hfew V N Hd.
  destruct (C03_outcome quality calls data w h c C Hfew (ex_intro _ P V)) as (t & _ & H).
  destruct (H P V) as [E _]. specialize (E (or_intror Hd)). eexists. split; [exact E|].
  intros j D A. apply N.
  assert (G : gives int_dct s (spec_color c) w h (spec_plane c data w) (exec (run_encode P quality calls data w h c))).
  { rewrite E. eexists. exists j. split; [reflexivity|]. split; [exact D|exact A]. }
  apply (C46_representable P quality calls data w h c (oa_calls _ _ C) V (fun _ => few_countable _ _ _ _ Hfew)) in G.
  destruct G as (_ & _ & G). exact (G (oa_huffman _ _ C)).
Qed.

(** ** C12: with an entry above 255 in a table that the image uses the file does not decode to the image ... *)
Theorem C12_truncated_undecodable : forall P quality calls data w h c comp i, let s := settings_of quality calls in
  Forall call_wf calls -> valid_input P data w h c -> (s_optimize s = true -> countable s (spec_color c) w h) ->
  In comp (comps_of (s_sampling s) (spec_color c)) -> 0 <= i < 64 -> 255 < quantizer s (co_tq comp) i ->
  ~ gives int_dct s (spec_color c) w h (spec_plane c data w) (exec (run_encode P quality calls data w h c)).
Proof.
  intros P quality calls data w h c comp i s C V Hfew Hc Hi Hq G.
  apply (C46_representable P quality calls data w h c C V Hfew) in G. destruct G as ((Q & _) & _). specialize (Q comp i Hc Hi). fold s in Q. lia.
Qed.
(** ... and with a multiple of 256 in either table it is not a valid file, even if the image (a greyscale one)
    does not use the table. *)
Theorem C12_zero_entry_invalid : forall P quality calls data w h c d i bytes, let s := settings_of quality calls in
  Forall call_wf calls -> valid_input P data w h c -> (s_optimize s = true -> countable s (spec_color c) w h) ->
  0 <= d <= 1 -> 0 <= i < 64 -> quantizer s d i mod 256 = 0 ->
  exec (run_encode P quality calls data w h c) = (bytes, Ok tt) -> decode bytes = None.
Proof.
  intros P quality calls data w h c d i bytes s C V Hfew Hd Hi Hz. rewrite run_encode_eq by assumption. fold s. intros E.
  pose proof (settings_of_wf quality calls C) as Hs. pose proof (valid_image _ _ _ _ _ V) as Him.
  assert (Hfit : im_width (image_of P data w h c) * im_height (image_of P data w h c) < 2 ^ (ubits P - 1)).
  { rewrite image_of_width, image_of_height. apply (valid_fits _ _ _ _ _ V). }
  assert (Hfew' : s_optimize s = true -> countable s (im_color (image_of P data w h c)) (im_width (image_of P data w h c)) (im_height (image_of P data w h c))).
  { rewrite image_of_width, image_of_height, image_of_color. exact Hfew. }
  destruct (written_tables s Hs default_operations fdct_pure int_dct default_op_ok fdct_is_int_dct P (vi_platform _ _ _ _ _ V) _ _ Him Hfit Hfew' bytes E)
    as (t & Ht & -> & _).
  destruct (decode _) as [j|] eqn:D; [|reflexivity]. exfalso.
  destruct (dims _ _ Him) as [Hw Hh].
  destruct (decoded_qt int_dct t s _ _ _ _ Hw Hh Ht (apps_wf s _ Hs) (sw_restart _ Hs) j D) as (Q & _).
  unfold quant_ok in Q. apply andb_prop in Q as [Q0 Q1].
  assert (Q : forallb (fun v => 0 <? v) (stored s d) = true).
  { assert (X : d = 0 \/ d = 1) by lia. destruct X as [-> | ->]; assumption. }
  rewrite forallb_forall in Q. destruct (zigzag_all i Hi) as (v & u & Hvu & Ei).
  specialize (Q (quantizer s d i mod 256)). rewrite Hz in Q. discriminate Q.
  rewrite <- Hz, <- Ei. unfold stored. apply in_map_iff. exists (v, u). split; [reflexivity|exact Hvu].
Qed.

(** ** Concrete cases *)
Lemma below64 (f : Z -> bool) : forallb f (map Z.of_nat (seq 0 64)) = true -> forall i, 0 <= i < 64 -> f i = true.
Proof.
  intros H i Hi. rewrite forallb_forall in H. apply H. apply in_map_iff. exists (Z.to_nat i). split; [lia|]. apply in_seq. lia.
Qed.
Definition wide_chroma : list call := [CQuant QDefault (QCustom (repeat 700 64))].
Definition zero_chroma : list call := [CQuant QDefault (QCustom (repeat 512 64))].
Lemma ex_chroma_wf v : 0 <= v < 65536 -> Forall call_wf [CQuant QDefault (QCustom (repeat v 64))].
Proof.
  intros Hv. constructor; [|constructor]. split; [exact I|]. split; [reflexivity|]. apply Forall_forall. intros x Hx.
  apply repeat_spec in Hx. subst x. exact Hv.
Qed.
(** A chroma table with entries of 700 does not matter for a greyscale image: *)
Example C46_grey_case : Forall call_wf wide_chroma /\
  representable int_dct (settings_of 75 wide_chroma) JLuma (spec_plane Luma gray8 8) 8 8.
Proof.
  split; [apply ex_chroma_wf; lia|]. split; [split|split].
  - intros c i [<-|[]] Hi. cbn [co_tq].
    pose proof (below64 (fun i => quantizer (settings_of 75 wide_chroma) 0 i <=? 255) ltac:(vm_compute; reflexivity) i Hi). cbv beta in *. lia.
  - intros i Hi.
    pose proof (below64 (fun i => negb (quantizer (settings_of 75 wide_chroma) 1 i mod 256 =? 0)) ltac:(vm_compute; reflexivity) i Hi). cbv beta in *. lia.
  - exact I.
  - discriminate.
Qed.
(** ... for a colour image it does, ... *)
Example C46_colour_case : ~ representable int_dct (settings_of 75 wide_chroma) JYcbcr (spec_plane Rgb ex_data 3) 3 2.
Proof.
  intros ((Q & _) & _). specialize (Q {| co_id := 1; co_h := 1; co_v := 1; co_tq := 1 |} 0 ltac:(right; left; reflexivity) ltac:(lia)).
  revert Q. vm_compute. intros H. now apply H.
Qed.
(** ... and entries of 512 do for a greyscale image, too. *)
Example C46_zero_case : Forall call_wf zero_chroma /\
  ~ representable int_dct (settings_of 75 zero_chroma) JLuma (spec_plane Luma gray8 8) 8 8 /\
  exists bytes, exec (run_encode debug64 75 zero_chroma gray8 8 8 Luma) = (bytes, Ok tt) /\ decode bytes = None.
Proof.
  split; [apply ex_chroma_wf; lia|]. split.
  - intros ((_ & Q) & _). apply (Q 0 ltac:(lia)). vm_compute. reflexivity.
  - assert (V : valid_input debug64 gray8 8 8 Luma).
    { constructor; try lia; try (vm_compute; (discriminate || reflexivity)).
      - now right.
      - apply Forall_forall. intros x Hx. unfold gray8, upto in Hx.
        apply in_map_iff in Hx as (n & <- & Hn). apply in_seq in Hn. unfold is_u8. lia. }
    pose proof (C40_exact_bytes debug64 75 zero_chroma gray8 8 8 Luma (ex_chroma_wf 512 ltac:(lia)) eq_refl V) as E.
    eexists. split; [exact E|].
    apply (C12_zero_entry_invalid debug64 75 zero_chroma gray8 8 8 Luma 1 0 _ (ex_chroma_wf 512 ltac:(lia)) V ltac:(discriminate) ltac:(lia) ltac:(lia)
      ltac:(vm_compute; reflexivity) E).
Qed.
(** The uncovered case of C03 is not representable either. *)
Example C46_restart_case : ~ representable int_dct (settings_of 90 bad_cfg) JLuma (spec_plane Luma bad_data 16) 16 8.
Proof. intros (_ & _ & H). apply C03_uncovered_case, H. reflexivity. Qed.
