(** C66: only the effective settings matter; a greyscale file does not depend on the sampling factor. *)
From Verif Require Import MAvx2 T81 SFile SApi SEncode SEffect PQuant PApi PExec PEncode PBytesF PRound ThmRound ThmApi ThmBytes PAvxDct ThmAvx2 ThmSimd ThmSizeS ThmLocal ThmGrey ThmLuma.
From Coq Require Import ZArith List Bool Lia ZifyBool ZifyNat.
Import ListNotations.
Open Scope Z_scope.

Lemma same_qtable t q t' q' l : qtype_wf t -> qtype_wf t' -> (forall i, 0 <= i < 64 -> quantizer_of t' q' l i = quantizer_of t q l i) ->
  qtable_of t' q' l = qtable_of t q l.
Proof.
  intros W W' H. unfold qtable_of. assert (E : quantizers t' q' l = quantizers t q l); [|now rewrite E].
  apply nth_ext with (d := 0) (d' := 0); [rewrite !quantizers_length; [reflexivity|apply W|apply W']|].
  intros n Hn. rewrite quantizers_length in Hn by apply W'.
  specialize (H (Z.of_nat n) ltac:(lia)). rewrite <- !quantizer_of_eq in H by (try apply W; try apply W'; lia).
  unfold zn in H. now rewrite Nat2Z.id in H.
Qed.
Lemma same_tables s s' : settings_wf s -> settings_wf s' -> same_request s s' ->
  qtable_of (s_luma s') (s_quality s') true = qtable_of (s_luma s) (s_quality s) true /\
  qtable_of (s_chroma s') (s_quality s') false = qtable_of (s_chroma s) (s_quality s) false.
Proof.
  intros W W' H. split; apply same_qtable; try apply W; try apply W'; intros i Hi.
  - exact (sr_tables _ _ H 0 i ltac:(lia) Hi).
  - exact (sr_tables _ _ H 1 i ltac:(lia) Hi).
Qed.

Section Same.
  Variables (q q' : Z) (cs0 : list component) (qt qt' : list qtype) (hf : list (htab * htab)) (sa sa' : sampling) (pr re : option Z) (o : bool).
  Variables (d : density) (sg : list (Z * list Z)).
  Let e := {| e_density := d; e_quality := q; e_components := cs0; e_qtypes := qt; e_huff := hf; e_sampling := sa; e_prog := pr; e_restart := re; e_optimize := o; e_segments := sg |}.
  Let e' := {| e_density := d; e_quality := q'; e_components := cs0; e_qtypes := qt'; e_huff := hf; e_sampling := sa'; e_prog := pr; e_restart := re; e_optimize := o; e_segments := sg |}.
  Lemma same_sequential P op cs im q0 q1 w : encode_image_sequential P op e' cs im q0 q1 w = encode_image_sequential P op e cs im q0 q1 w.
  Proof. reflexivity. Qed.
  Lemma same_progressive P op n cs im q0 q1 w : encode_image_progressive P op e' n cs im q0 q1 w = encode_image_progressive P op e n cs im q0 q1 w.
  Proof. reflexivity. Qed.
  Lemma same_interleaved P op cs im q0 q1 w : encode_image_interleaved P op e' cs im q0 q1 w = encode_image_interleaved P op e cs im q0 q1 w.
  Proof. reflexivity. Qed.
End Same.

Lemma comps_by_factors a b color : (color <> JLuma -> factors a = factors b) -> init_components a color = init_components b color.
Proof.
  intros H. unfold init_components. rewrite !C30_factors.
  destruct color; try (rewrite H by discriminate; reflexivity). destruct (factors a), (factors b). reflexivity.
Qed.
Lemma interleaved_by_factors a b : factors a = factors b -> supports_interleaved a = supports_interleaved b.
Proof. destruct a, b; cbn; intros [=]; reflexivity. Qed.

(** The same program, whatever the image buffer does. *)
Lemma effect_core P op s s' im : settings_wf s -> settings_wf s' -> same_request s s' ->
  factors (s_sampling s') = factors (s_sampling s) \/ im_color im = JLuma /\ (s_scans s <> None \/ s_optimize s = true) ->
  encode_image_internal P op (enc_of s') im = encode_image_internal P op (enc_of s) im.
Proof.
  intros W W' H Hf. destruct (same_tables s s' W W' H) as [T0 T1].
  assert (Ec : init_components (s_sampling s') (im_color im) = init_components (s_sampling s) (im_color im)).
  { apply comps_by_factors. intros N. destruct Hf as [Hf|[Hf _]]; [exact Hf|congruence]. }
  assert (Em : s_scans s = None -> s_optimize s || negb (supports_interleaved (s_sampling s')) = s_optimize s || negb (supports_interleaved (s_sampling s))).
  { intros N. destruct Hf as [Hf|[_ [Hf|Hf]]]; [now rewrite (interleaved_by_factors _ _ Hf)|congruence|now rewrite Hf]. }
  unfold encode_image_internal. destruct ((im_width im =? 0) || (im_height im =? 0)); [reflexivity|].
  destruct s as [q de sa lu ch sc r o sg], s' as [q' de' sa' lu' ch' sc' r' o' sg'].
  destruct H as [_ H1 H2 H3 H4 H5]. cbn [s_quality s_density s_sampling s_luma s_chroma s_scans s_restart s_optimize s_segments] in *. subst de' sg' sc' r' o'.
  unfold enc_of. cbn [s_quality s_density s_sampling s_luma s_chroma s_scans s_restart s_optimize s_segments
       e_density e_quality e_components e_qtypes e_huff e_sampling e_prog e_restart e_optimize e_segments].
  change (index [lu; ch] 0) with (@Ret qtype lu). change (index [lu; ch] 1) with (@Ret qtype ch).
  change (index [lu'; ch'] 0) with (@Ret qtype lu'). change (index [lu'; ch'] 1) with (@Ret qtype ch').
  cbn [bind app]. rewrite !new_with_quality_ret. cbn [bind]. rewrite T0, T1, Ec.
  destruct sc as [n|]; [rewrite (same_progressive q q' [] [lu; ch] [lu'; ch'] std_huff sa sa'); reflexivity|].
  specialize (Em eq_refl). rewrite Em. destruct (o || negb (supports_interleaved sa)).
  - rewrite (same_sequential q q' [] [lu; ch] [lu'; ch'] std_huff sa sa'). reflexivity.
  - rewrite (same_interleaved q q' [] [lu; ch] [lu'; ch'] std_huff sa sa'). reflexivity.
Qed.

(** ** Greyscale *)
Definition with_factor (sa : sampling) (s : settings) : settings :=
  {| s_quality := s_quality s; s_density := s_density s; s_sampling := sa; s_luma := s_luma s; s_chroma := s_chroma s;
     s_scans := s_scans s; s_restart := s_restart s; s_optimize := s_optimize s; s_segments := s_segments s |}.
Lemma script_grey s : scan_script s JLuma = scan_script (with_factor F_1_1 s) JLuma.
Proof.
  unfold scan_script, with_factor. cbn [s_sampling s_scans s_optimize].
  assert (E : forall sa, length (comps_of sa JLuma) = 1%nat) by (intros []; reflexivity). rewrite !E.
  destruct (factors (s_sampling s)) as [h v], (factors F_1_1) as [h' v']. destruct (s_scans s); [reflexivity|].
  destruct (negb (s_optimize s) && (h <=? 2) && (v <=? 2)), (negb (s_optimize s) && (h' <=? 2) && (v' <=? 2)); reflexivity.
Qed.
Lemma frame_grey s w h : frame_for s JLuma w h = frame_for (with_factor F_1_1 s) JLuma w h.
Proof. destruct s as [q d sa lu ch sc r o sg]. unfold frame_for. cbn [s_scans s_sampling with_factor]. f_equal. destruct sa; reflexivity. Qed.
Lemma expected_grey T s pl w h ci c y x k : expected T s JLuma pl w h ci c y x k = expected T (with_factor F_1_1 s) JLuma pl w h ci c y x k.
Proof. unfold expected. rewrite <- frame_grey. reflexivity. Qed.
Lemma file_grey T t s pl w h : jpeg_file_with T t s JLuma pl w h = jpeg_file_with T t (with_factor F_1_1 s) JLuma pl w h.
Proof.
  unfold jpeg_file_with, expected. cbv zeta. rewrite <- frame_grey. unfold file_parts. rewrite <- script_grey. reflexivity.
Qed.

Lemma wf_factor sa s : settings_wf s -> settings_wf (with_factor sa s).
Proof. intros [? ? ? ? ? ?]. constructor; assumption. Qed.
Lemma request_factor sa s : same_request s (with_factor sa s).
Proof. constructor; reflexivity. Qed.
Lemma request_trans s1 s2 s3 : same_request s1 s2 -> same_request s2 s3 -> same_request s1 s3.
Proof.
  intros [A1 A2 A3 A4 A5 A6] [B1 B2 B3 B4 B5 B6]. constructor; try congruence.
  intros d i Hd Hi. rewrite B1, A1 by assumption. reflexivity.
Qed.
Lemma request_sym s1 s2 : same_request s1 s2 -> same_request s2 s1.
Proof. intros [A1 A2 A3 A4 A5 A6]. constructor; try congruence. intros d i Hd Hi. now rewrite A1. Qed.

Lemma grey_factor P op F T s im pl : plat_ok P -> settings_wf s -> op_ok op F -> transform_is F T -> image_ok im pl ->
  im_width im * im_height im < 2 ^ (ubits P - 1) -> im_color im = JLuma ->
  exec (encode_image_internal P op (enc_of s) im) = exec (encode_image_internal P op (enc_of (with_factor F_1_1 s)) im).
Proof.
  intros HP W Hop HF Him Hfit Hc. destruct (s_optimize s) eqn:O.
  - apply f_equal. symmetry. apply effect_core; [exact W|now apply wf_factor|apply request_factor|right; now rewrite O; auto].
  - pose proof (std_bytes_with P HP s W O op F T im pl Hop HF Him Hfit) as E1.
    pose proof (std_bytes_with P HP (with_factor F_1_1 s) (wf_factor _ _ W) O op F T im pl Hop HF Him Hfit) as E2.
    unfold emits in E1, E2. rewrite E1, E2. f_equal. rewrite Hc. pose proof (file_grey T annexK_tables s pl (im_width im) (im_height im)) as G.
    unfold jpeg_file_with in G. unfold spec_cf. rewrite Hc. exact G.
Qed.
Lemma grey_core P op F T s s' im pl : plat_ok P -> settings_wf s -> settings_wf s' -> op_ok op F -> transform_is F T -> image_ok im pl ->
  im_width im * im_height im < 2 ^ (ubits P - 1) -> im_color im = JLuma -> same_request s s' ->
  exec (encode_image_internal P op (enc_of s') im) = exec (encode_image_internal P op (enc_of s) im).
Proof.
  intros HP W W' Hop HF Him Hfit Hc H. rewrite (grey_factor P op F T s im pl), (grey_factor P op F T s' im pl) by assumption.
  apply f_equal. apply effect_core; try now apply wf_factor.
  - eapply request_trans; [apply request_sym, request_factor|]. eapply request_trans; [exact H|apply request_factor].
  - now left.
Qed.

(** ** C66
    Equal tables, equal sampling factors: the same program, so the same bytes and outcome with every writer, also for
    invalid data and buffers that misbehave. *)
Theorem C66_same_request : forall P quality calls quality' calls' data w h c, Forall call_wf calls -> Forall call_wf calls' ->
  let s := settings_of quality calls in let s' := settings_of quality' calls' in
  same_request s s' -> factors (s_sampling s') = factors (s_sampling s) ->
  run_encode P quality' calls' data w h c = run_encode P quality calls data w h c.
Proof.
  intros P quality calls quality' calls' data w h c C C' s s' H Hf. unfold run_encode. rewrite !build_ret by assumption. cbn [bind].
  unfold encode, encode_image. fold s s'. rewrite (effect_core P _ s s' _ (settings_of_wf _ _ C) (settings_of_wf _ _ C') H (or_introl Hf)). reflexivity.
Qed.
Theorem C66_same_request_image : forall P quality calls quality' calls' im, Forall call_wf calls -> Forall call_wf calls' ->
  let s := settings_of quality calls in let s' := settings_of quality' calls' in
  same_request s s' -> factors (s_sampling s') = factors (s_sampling s) ->
  run_encode_image P quality' calls' im = run_encode_image P quality calls im.
Proof.
  intros P quality calls quality' calls' im C C' s s' H Hf. rewrite !run_encode_image_eq by assumption.
  exact (effect_core P _ s s' im (settings_of_wf _ _ C) (settings_of_wf _ _ C') H (or_introl Hf)).
Qed.
Theorem C66_same_request_simd : forall P quality calls quality' calls' data w h c, Forall call_wf calls -> Forall call_wf calls' ->
  let s := settings_of quality calls in let s' := settings_of quality' calls' in
  same_request s s' -> factors (s_sampling s') = factors (s_sampling s) ->
  run_encode_avx2 P quality' calls' data w h c = run_encode_avx2 P quality calls data w h c.
Proof.
  intros P quality calls quality' calls' data w h c C C' s s' H Hf. unfold run_encode_avx2. rewrite !build_ret by assumption. cbn [bind].
  unfold encode_avx2, encode_image_avx2. fold s s'.
  assert (Er : forall color, row_capacity P (enc_of s') color w h = row_capacity P (enc_of s) color w h).
  { intros color. unfold row_capacity. cbn [e_components e_sampling e_prog e_optimize enc_of app].
    rewrite (comps_by_factors _ _ color (fun _ => Hf)), (interleaved_by_factors _ _ Hf), (sr_scans _ _ H), (sr_optimize _ _ H). reflexivity. }
  rewrite Er, (effect_core P _ s s' _ (settings_of_wf _ _ C) (settings_of_wf _ _ C') H (or_introl Hf)). reflexivity.
Qed.
Theorem C66_same_request_image_simd : forall P quality calls quality' calls' im, Forall call_wf calls -> Forall call_wf calls' ->
  let s := settings_of quality calls in let s' := settings_of quality' calls' in
  same_request s s' -> factors (s_sampling s') = factors (s_sampling s) ->
  run_encode_image_avx2 P quality' calls' im = run_encode_image_avx2 P quality calls im.
Proof.
  intros P quality calls quality' calls' im C C' s s' H Hf. rewrite !run_image_avx2_eq by assumption.
  exact (effect_core P _ s s' im (settings_of_wf _ _ C) (settings_of_wf _ _ C') H (or_introl Hf)).
Qed.

(** Greyscale: the sampling factor (also the one that the quality selects) does not matter. *)
Theorem C66_grey : forall P quality calls quality' calls' data w h, Forall call_wf calls -> Forall call_wf calls' ->
  same_request (settings_of quality calls) (settings_of quality' calls') -> valid_input P data w h Luma ->
  exec (run_encode P quality' calls' data w h Luma) = exec (run_encode P quality calls data w h Luma).
Proof.
  intros P quality calls quality' calls' data w h C C' H V. rewrite !run_encode_eq by assumption.
  apply (grey_core P _ _ _ _ _ _ (spec_plane Luma data w) (vi_platform _ _ _ _ _ V) (settings_of_wf _ _ C) (settings_of_wf _ _ C') default_op_ok fdct_is_int_dct (valid_image _ _ _ _ _ V));
    [rewrite image_of_width, image_of_height; apply (valid_fits _ _ _ _ _ V)|apply image_of_color|exact H].
Qed.
Theorem C66_grey_simd : forall P quality calls quality' calls' data w h, Forall call_wf calls -> Forall call_wf calls' ->
  same_request (settings_of quality calls) (settings_of quality' calls') -> valid_input P data w h Luma ->
  exec (run_encode_avx2 P quality' calls' data w h Luma) = exec (run_encode_avx2 P quality calls data w h Luma).
Proof.
  intros P quality calls quality' calls' data w h C C' H V. rewrite !run_avx2_eq by assumption.
  apply (grey_core P _ _ _ _ _ _ (spec_plane Luma data w) (vi_platform _ _ _ _ _ V) (settings_of_wf _ _ C) (settings_of_wf _ _ C') avx2_op_ok avx2_is_dct (valid_image _ _ _ _ _ V));
    [rewrite image_of_width, image_of_height; apply (valid_fits _ _ _ _ _ V)|apply image_of_color|exact H].
Qed.
Theorem C66_grey_image : forall P quality calls quality' calls' im pl, Forall call_wf calls -> Forall call_wf calls' ->
  same_request (settings_of quality calls) (settings_of quality' calls') -> valid_buffer P im pl -> im_color im = JLuma ->
  exec (run_encode_image P quality' calls' im) = exec (run_encode_image P quality calls im) /\
  exec (run_encode_image_avx2 P quality' calls' im) = exec (run_encode_image_avx2 P quality calls im).
Proof.
  intros P quality calls quality' calls' im pl C C' H V Hc. split.
  - rewrite !run_encode_image_eq by assumption. exact (grey_core P _ _ _ _ _ _ pl (vb_platform _ _ _ V) (settings_of_wf _ _ C) (settings_of_wf _ _ C') default_op_ok fdct_is_int_dct (vb_image _ _ _ V) (vb_fits _ _ _ V) Hc H).
  - rewrite !run_image_avx2_eq by assumption. exact (grey_core P _ _ _ _ _ _ pl (vb_platform _ _ _ V) (settings_of_wf _ _ C) (settings_of_wf _ _ C') avx2_op_ok avx2_is_dct (vb_image _ _ _ V) (vb_fits _ _ _ V) Hc H).
Qed.

(** ** Concrete cases
    The default tables at quality 75 halved by hand, under quality 100 (whose default sampling factor is 1x1), with the
    sampling factor of quality 75 named by its alias. *)
Definition halved (l : list Z) : list Z := map (fun v => (v * 50 + 50) / 100) l.
Example C66_case_request : same_request (settings_of 75 [CRestart 2])
  (settings_of 100 [CSampling R_4_2_0; CQuant (QCustom (halved annexK1)) (QCustom (halved annexK2)); CRestart 2]).
Proof.
  constructor; try reflexivity. intros d i Hd Hi.
  assert (A : forallb (fun i => forallb (fun d => quantizer (settings_of 100 [CSampling R_4_2_0; CQuant (QCustom (halved annexK1)) (QCustom (halved annexK2)); CRestart 2]) d i
     =? quantizer (settings_of 75 [CRestart 2]) d i) [0; 1]) (upto 64) = true) by (vm_compute; reflexivity).
  rewrite forallb_forall in A. specialize (A i). assert (Hin : In i (upto 64)).
  { unfold upto. apply in_map_iff. exists (Z.to_nat i). split; [lia|]. apply in_seq. lia. }
  specialize (A Hin). rewrite forallb_forall in A. specialize (A d). assert (Hd' : In d [0; 1]) by (cbn; lia). specialize (A Hd'). lia.
Qed.
Example C66_case : run_encode debug64 100 [CSampling R_4_2_0; CQuant (QCustom (halved annexK1)) (QCustom (halved annexK2)); CRestart 2] rgba_bytes 9 17 Rgba
  = run_encode debug64 75 [CRestart 2] rgba_bytes 9 17 Rgba.
Proof.
  apply C66_same_request; [repeat (constructor; [cbn; unfold is_u16; lia|]); constructor| |exact C66_case_request|reflexivity].
  repeat (constructor; [try (cbn; unfold is_u16; lia)|]); try constructor; cbn; try exact I; split;
    try (split; [reflexivity|]); apply Forall_forall; intros v Hv; vm_compute in Hv; unfold is_u16; repeat destruct Hv as [<-|Hv]; try lia; destruct Hv.
Qed.
Example C66_case_grey : exec (run_encode release32 50 [CSampling F_4_2] grey_bytes 9 17 Luma) = exec (run_encode release32 50 [CSampling F_1_1] grey_bytes 9 17 Luma).
Proof.
  apply C66_grey; [repeat constructor|repeat constructor|constructor; reflexivity|]. constructor; try (vm_compute; split; discriminate); [now left| |vm_compute; discriminate].
  apply bytes_by_check. vm_compute. reflexivity.
Qed.
