(** The properties of the files for every configuration: any accepted number of scans, any quantization tables,
    any restart interval, standard or optimized Huffman tables, any build (C05, C06, C27, C31, C36); and for
    every configuration in which the file decodes to the image (C04, C12, C25). *)
From Verif Require Import T81 SFile SEncode SSize SHuff SRestart SDecide MAvx2 PRest PParts PDecide PCount PAll
  ThmRound ThmScan ThmHuff ThmBytes ThmQuant ThmImage ThmRestart ThmDecide.
From Coq Require Import ZArith List Bool Lia.
Import ListNotations.
Open Scope Z_scope.

(** A valid call of [encode]; with optimized tables at most 68,174,084 data units, so that the symbols can be
    counted in 32 bits (a greyscale image always has fewer). *)
Record valid_call (P : platform) (quality : Z) (calls : list call) (data : list Z) (w h : Z) (c : ctype) : Prop := {
  vc_calls : Forall call_wf calls;
  vc_input : valid_input P data w h c;
  vc_countable : s_optimize (settings_of quality calls) = true -> countable (settings_of quality calls) (spec_color c) w h
}.
(** With optimized tables: at most 146,467 data units, or the table construction does not panic (C43). *)
Notation generated P quality calls data w h c :=
  (tables_generated (settings_of quality calls) (spec_color c) w h (run_encode P quality calls data w h c)).
Notation generated_simd P quality calls data w h c :=
  (tables_generated (settings_of quality calls) (spec_color c) w h (run_encode_avx2 P quality calls data w h c)).
Notation covered quality calls data w h c :=
  (restart_covered int_dct (settings_of quality calls) (spec_color c) (spec_plane c data w) w h).

Lemma written P quality calls data w h c bytes : valid_call P quality calls data w h c ->
  exec (run_encode P quality calls data w h c) = (bytes, Ok tt) ->
  exists t, storable_tables t /\ byte_tables t /\
    bytes = jpeg_file t (settings_of quality calls) (spec_color c) (spec_plane c data w) w h.
Proof.
  intros [C V Hc] E. rewrite run_encode_eq in E by assumption.
  pose proof (settings_of_wf quality calls C) as Hs. pose proof (valid_image _ _ _ _ _ V) as Him.
  destruct (written_tables _ Hs default_operations fdct_pure int_dct default_op_ok fdct_is_int_dct P (vi_platform _ _ _ _ _ V) _ _ Him) with (bytes := bytes)
    as (t & Ht & Eb & _ & Hb).
  - rewrite image_of_width, image_of_height. apply (valid_fits _ _ _ _ _ V).
  - rewrite image_of_width, image_of_height, image_of_color. exact Hc.
  - exact E.
  - exists t. split; [exact Ht|]. split; [exact Hb|]. rewrite image_of_width, image_of_height, image_of_color in Eb. exact Eb.
Qed.

(** ** C36: the outcome of every valid call *)
Theorem C36_every_configuration : forall P quality calls data w h c, let s := settings_of quality calls in
  valid_call P quality calls data w h c ->
  ((s_optimize s = false \/ covered quality calls data w h c \/ dbg P = false ->
      exists bytes, exec (run_encode P quality calls data w h c) = (bytes, Ok tt) /\ Forall is_u8 bytes) /\
   (s_optimize s = true -> ~ covered quality calls data w h c -> dbg P = true ->
      exists bytes, exec (run_encode P quality calls data w h c) = (bytes, Panicked PDebugAssert))) \/
  (s_optimize s = true /\ ~ few_blocks s (spec_color c) w h /\
     exists bytes, exec (run_encode P quality calls data w h c) = (bytes, Panicked PIndex)).
Proof.
  intros P quality calls data w h c s VC. pose proof VC as [C V Hc]. fold s in Hc.
  assert (B : forall bytes, exec (run_encode P quality calls data w h c) = (bytes, Ok tt) -> Forall is_u8 bytes).
  { intros bytes E. destruct (written _ _ _ _ _ _ _ _ VC E) as (t & Ht & Hb & ->).
    apply file_bytes; try assumption; try apply V. exact (settings_of_wf quality calls C). }
  destruct (s_optimize s) eqn:O.
  - destruct (C43_outcome quality calls data w h c) as [(t & _ & H)|[N H]].
    { split; [exact C|exact O]. } { exact (Hc eq_refl). } { exists P. exact V. }
    + left. destruct (H P V) as [H1 H2]. split.
      * intros [X|X]; [discriminate X|]. specialize (H1 X). eexists. split; [exact H1|]. exact (B _ H1).
      * intros _ Nc Hd. exact (H2 Nc Hd).
    + right. split; [reflexivity|]. split; [exact N|exact (H P V)].
  - left. pose proof (C40_exact_bytes P quality calls data w h c C O V) as E. split; [|discriminate].
    intros _. eexists. split; [exact E|exact (B _ E)].
Qed.
(** So the only outcomes are success, in builds with debug assertions that one panic, and for images of more
    than 146,467 data units with optimized tables the index panic of the table construction. *)
Theorem C36_no_other_outcome : forall P quality calls data w h c, let s := settings_of quality calls in
  valid_call P quality calls data w h c ->
  snd (exec (run_encode P quality calls data w h c)) = Ok tt \/
  (dbg P = true /\ s_optimize s = true /\ s_restart s <> 0 /\
   snd (exec (run_encode P quality calls data w h c)) = Panicked PDebugAssert) \/
  (s_optimize s = true /\ ~ few_blocks s (spec_color c) w h /\
   snd (exec (run_encode P quality calls data w h c)) = Panicked PIndex).
Proof.
  intros P quality calls data w h c s VC.
  destruct (C36_every_configuration P quality calls data w h c VC) as [[H1 H2]|(O & N & b & E)].
  2:{ right. right. split; [exact O|]. split; [exact N|]. rewrite E. reflexivity. }
  fold s in H1, H2. destruct (s_optimize s) eqn:O; [|destruct (H1 (or_introl eq_refl)) as (b & -> & _); now left].
  destruct (dbg P) eqn:Hd; [|destruct (H1 (or_intror (or_intror eq_refl))) as (b & -> & _); now left].
  destruct (covered_dec int_dct s (spec_color c) (spec_plane c data w) w h) as [X|X].
  - destruct (H1 (or_intror (or_introl X))) as (b & -> & _). now left.
  - right. left. destruct (H2 eq_refl X eq_refl) as (b & ->). split; [reflexivity|]. split; [reflexivity|]. split; [|reflexivity].
    intros R. apply X.
    apply (C03_no_restarts_covered quality calls data w h c P); [|apply VC|].
    + split; [apply VC|exact O].
    + left. exact R.
Qed.

(** ** C31: a call that succeeds in two builds gives the same bytes. *)
Theorem C31_every_configuration : forall P1 P2 quality calls data w h c b1 b2,
  valid_call P1 quality calls data w h c -> valid_call P2 quality calls data w h c ->
  exec (run_encode P1 quality calls data w h c) = (b1, Ok tt) ->
  exec (run_encode P2 quality calls data w h c) = (b2, Ok tt) -> b1 = b2.
Proof.
  intros P1 P2 quality calls data w h c b1 b2 [C V1 Hc] [_ V2 _] E1 E2.
  destruct (s_optimize (settings_of quality calls)) eqn:O.
  - destruct (C43_outcome quality calls data w h c) as [(t & _ & H)|[_ H]].
    { split; [exact C|exact O]. } { exact (Hc eq_refl). } { exists P1. exact V1. }
    2:{ destruct (H P1 V1) as (b & E). rewrite E in E1. discriminate E1. }
    assert (G : forall P b, valid_input P data w h c -> exec (run_encode P quality calls data w h c) = (b, Ok tt) ->
      b = jpeg_file t (settings_of quality calls) (spec_color c) (spec_plane c data w) w h).
    { intros P b V E. destruct (H P V) as [H1 H2].
      destruct (covered_dec int_dct (settings_of quality calls) (spec_color c) (spec_plane c data w) w h) as [X|X].
      - rewrite (H1 (or_introl X)) in E. injection E as <-. reflexivity.
      - destruct (dbg P) eqn:Hd.
        + destruct (H2 X eq_refl) as (b' & E'). rewrite E' in E. discriminate E.
        + rewrite (H1 (or_intror eq_refl)) in E. injection E as <-. reflexivity. }
    rewrite (G P1 b1 V1 E1), (G P2 b2 V2 E2). reflexivity.
  - rewrite (C40_exact_bytes P1 quality calls data w h c C O V1) in E1.
    rewrite (C40_exact_bytes P2 quality calls data w h c C O V2) in E2. congruence.
Qed.
(** A call with at most 146,467 data units, or that succeeds in some build, generates its tables in every build. *)
Lemma few_generated P quality calls data w h c : (s_optimize (settings_of quality calls) = true -> few_blocks (settings_of quality calls) (spec_color c) w h) ->
  generated P quality calls data w h c.
Proof. intros H O. left. exact (H O). Qed.
Theorem C31_generated : forall P1 P2 quality calls data w h c,
  valid_call P1 quality calls data w h c -> valid_call P2 quality calls data w h c ->
  generated P1 quality calls data w h c -> generated P2 quality calls data w h c.
Proof.
  intros P1 P2 quality calls data w h c [C V1 Hc] [_ V2 _] G O. destruct (G O) as [Hf|Hn]; [now left|].
  destruct (C43_outcome quality calls data w h c) as [(t & _ & H)|[_ H]].
  { split; [exact C|exact O]. } { exact (Hc O). } { exists P1. exact V1. }
  - right. destruct (H P2 V2) as [H1 H2].
    destruct (covered_dec int_dct (settings_of quality calls) (spec_color c) (spec_plane c data w) w h) as [X|X].
    + rewrite (H1 (or_introl X)). discriminate.
    + destruct (dbg P2) eqn:Hd.
      * destruct (H2 X eq_refl) as (b' & E'). rewrite E'. discriminate.
      * rewrite (H1 (or_intror eq_refl)). discriminate.
  - destruct (H P1 V1) as (b & E). rewrite E in Hn. contradiction Hn. reflexivity.
Qed.

(** ** C05: no stray markers *)
Theorem C05_every_configuration : forall P quality calls data w h c bytes, let s := settings_of quality calls in
  valid_call P quality calls data w h c -> exec (run_encode P quality calls data w h c) = (bytes, Ok tt) ->
  exists ps, bytes = render_file ps /\
    map fst (scans ps) = map (scan_header (frame_for s (spec_color c) w h)) (scan_script s (spec_color c)) /\
    forall hd, In hd (scans ps) -> no_stray_marker (coded_data 0 (snd hd)) = true.
Proof.
  intros P quality calls data w h c bytes s VC E. destruct (written _ _ _ _ _ _ _ _ VC E) as (t & Ht & Hb & ->).
  pose proof VC as [C V _].
  exists (file_parts t s (frame_for s (spec_color c) w h) (spec_color c) (coefficients_of int_dct s (spec_color c) (spec_plane c data w) w h)).
  split; [reflexivity|]. rewrite file_scans. split; [rewrite map_map; reflexivity|].
  intros hd Hin. apply in_map_iff in Hin as (si & <- & _). cbn [snd]. apply no_stray_coded. apply coded_ok.
  unfold scan_data. apply Forall_map, Forall_forall. intros m _. apply pack_ok.
Qed.

(** ** C06: restart intervals *)
Theorem C06_every_configuration : forall P quality calls data w h c bytes, let s := settings_of quality calls in
  let f := frame_for s (spec_color c) w h in let r := s_restart s in
  valid_call P quality calls data w h c -> exec (run_encode P quality calls data w h c) = (bytes, Ok tt) ->
  exists ps, bytes = render_file ps /\
    dri_segments ps = (if r =? 0 then [] else [[r / 256; r mod 256]]) /\
    Forall2 (fun hd si =>
      fst hd = scan_header f si /\
      Z.of_nat (length (snd hd)) = interval_count r (mcu_count f si) /\
      Z.of_nat (length (mcus_of f si)) = mcu_count f si /\
      (* every interval is coded on its own, from predictions of 0 *)
      exists dc ac, snd hd = map (fun mcus => pack (encode_units dc ac (si_ss si) (si_se si)
                                     (coefficients_of int_dct s (spec_color c) (spec_plane c data w) w h) (fun _ => 0) (concat mcus)))
                                 (intervals r (mcus_of f si)))
      (scans ps) (scan_script s (spec_color c)).
Proof.
  intros P quality calls data w h c bytes s f r VC E. destruct (written _ _ _ _ _ _ _ _ VC E) as (t & Ht & Hb & ->).
  pose proof VC as [C V _]. pose proof (settings_of_wf quality calls C) as Hs. fold s in Hs.
  exists (file_parts t s f (spec_color c) (coefficients_of int_dct s (spec_color c) (spec_plane c data w) w h)).
  split; [reflexivity|]. split; [exact (file_dri int_dct t s Hs (spec_color c) (spec_plane c data w) w h)|].
  unfold f. rewrite file_scans. fold f.
  assert (G : forall l, incl l (scan_script s (spec_color c)) ->
    Forall2 (fun hd si => fst hd = scan_header f si /\ Z.of_nat (length (snd hd)) = interval_count r (mcu_count f si) /\
      Z.of_nat (length (mcus_of f si)) = mcu_count f si /\
      exists dc ac, snd hd = map (fun mcus => pack (encode_units dc ac (si_ss si) (si_se si)
                                     (coefficients_of int_dct s (spec_color c) (spec_plane c data w) w h) (fun _ => 0) (concat mcus)))
                                 (intervals r (mcus_of f si)))
     (map (fun si => (scan_header f si, scan_data t f r (coefficients_of int_dct s (spec_color c) (spec_plane c data w) w h) si)) l) l).
  { induction l as [|si l IH]; intros Hl; [constructor|]. cbn [map]. constructor; [|apply IH; intros x Hx; apply Hl; now right].
    cbn [fst snd]. split; [reflexivity|].
    assert (M : Z.of_nat (length (mcus_of f si)) = mcu_count f si).
    { apply mcus_length; [pose proof (vi_width _ _ _ _ _ V); lia|pose proof (vi_height _ _ _ _ _ V); lia|]. apply Hl. now left. }
    split; [|split; [exact M|eexists; eexists; reflexivity]].
    unfold scan_data. rewrite map_length, intervals_length, M; [reflexivity|]. apply (sw_restart _ Hs). }
  apply G. apply incl_refl.
Qed.

(** ** C27: the scans of a progressive file *)
(** First one scan of the DC coefficients per component, then for each of [n - 1] bands one scan per component,
    and every coefficient 1..63 is in exactly one of the bands (for 34 scans and more some of the bands are
    empty, see C28). *)
Theorem C27_every_configuration : forall P quality calls data w h c n bytes, let s := settings_of quality calls in
  let f := frame_for s (spec_color c) w h in
  valid_call P quality calls data w h c -> s_scans s = Some n ->
  exec (run_encode P quality calls data w h c) = (bytes, Ok tt) ->
  exists ps bands, bytes = render_file ps /\ 2 <= n <= 64 /\ partition_1_63 n bands /\
    map fst (scans ps) =
      flat_map (fun b => map (fun comp => [1; co_id comp; 16 * co_tq comp + co_tq comp; fst b; snd b; 0]) (fr_comps f))
               ((0, 0) :: bands).
Proof.
  intros P quality calls data w h c n bytes s f VC Hn E. destruct (written _ _ _ _ _ _ _ _ VC E) as (t & Ht & Hb & ->).
  pose proof VC as [C V _]. pose proof (settings_of_wf quality calls C) as Hs. fold s in Hs.
  pose proof (sw_scans _ Hs) as R. rewrite Hn in R.
  exists (file_parts t s f (spec_color c) (coefficients_of int_dct s (spec_color c) (spec_plane c data w) w h)), (spectral_bands n).
  split; [reflexivity|]. split; [exact R|]. split; [now apply spectral_partition|]. unfold f at 1. rewrite file_scans. fold f.
  rewrite map_map. cbn [fst]. unfold scan_script. destruct (factors (s_sampling s)) as [hh vv]. rewrite Hn.
  change (length (comps_of (s_sampling s) (spec_color c))) with (length (fr_comps f)).
  assert (S1 : forall b, map (fun si => scan_header f si) (single_scans (length (fr_comps f)) b)
                         = map (fun comp => [1; co_id comp; 16 * co_tq comp + co_tq comp; fst b; snd b; 0]) (fr_comps f)).
  { intros b. unfold single_scans. rewrite map_map. unfold scan_header at 1. cbn [si_comps si_ss si_se length].
    generalize (fr_comps f). intros l.
    assert (G : forall pre l, map (fun ci => [Z.of_nat 1] ++ flat_map (fun ci => match nth_error (pre ++ l) ci with Some c => [co_id c; 16 * co_tq c + co_tq c] | None => [] end) [ci] ++ [fst b; snd b; 0]) (seq (length pre) (length l))
        = map (fun comp => [1; co_id comp; 16 * co_tq comp + co_tq comp; fst b; snd b; 0]) l).
    { intros pre l0. revert pre. induction l0 as [|x l0 IH]; intros pre; [reflexivity|]. cbn [length seq map].
      f_equal.
      - cbn [flat_map]. rewrite nth_error_app2, Nat.sub_diag by lia. reflexivity.
      - specialize (IH (pre ++ [x])). rewrite app_length in IH. cbn [length] in IH. rewrite Nat.add_1_r in IH. rewrite <- IH.
        apply map_ext. intros ci. rewrite <- app_assoc. reflexivity. }
    exact (G [] l). }
  rewrite map_app, S1. cbn [flat_map fst snd]. f_equal.
  generalize (spectral_bands n). induction l as [|b l IH]; [reflexivity|]. cbn [flat_map]. rewrite map_app, S1, IH. reflexivity.
Qed.

(** ** C04: any two representable configurations with the same quality, sampling factor and quantization tables *)
Theorem C04_every_representable : forall P1 P2 q1 calls1 q2 calls2 data w h c,
  let s1 := settings_of q1 calls1 in let s2 := settings_of q2 calls2 in
  valid_call P1 q1 calls1 data w h c -> valid_call P2 q2 calls2 data w h c -> same_coding s1 s2 ->
  generated P1 q1 calls1 data w h c -> generated P2 q2 calls2 data w h c ->
  representable int_dct s1 (spec_color c) (spec_plane c data w) w h ->
  representable int_dct s2 (spec_color c) (spec_plane c data w) w h ->
  exists b1 b2 j1 j2,
    exec (run_encode P1 q1 calls1 data w h c) = (b1, Ok tt) /\ decode b1 = Some j1 /\
    exec (run_encode P2 q2 calls2 data w h c) = (b2, Ok tt) /\ decode b2 = Some j2 /\
    fr_comps (j_frame j1) = fr_comps (j_frame j2) /\
    forall ci co, nth_error (fr_comps (j_frame j1)) ci = Some co ->
      quant j1 ci = quant j2 ci /\
      forall by_ bx k, 0 <= by_ < blocks_high (j_frame j1) co -> 0 <= bx < blocks_wide (j_frame j1) co -> 0 <= k < 64 ->
        exists v, coef j1 ci by_ bx k = Some v /\ coef j2 ci by_ bx k = Some v.
Proof.
  intros P1 P2 q1 calls1 q2 calls2 data w h c s1 s2 [C1 V1 F1] [C2 V2 F2] S G1 G2 R1 R2.
  apply (C46_decodes_iff P1 q1 calls1 data w h c C1 V1 F1 G1) in R1. apply (C46_decodes_iff P2 q2 calls2 data w h c C2 V2 F2 G2) in R2.
  destruct R1 as (b1 & j1 & E1 & D1 & A1). destruct R2 as (b2 & j2 & E2 & D2 & A2).
  exists b1, b2, j1, j2. split; [exact E1|]. split; [exact D1|]. split; [exact E2|]. split; [exact D2|].
  exact (decoded_same _ _ _ _ _ _ _ _ _ S A1 A2).
Qed.

(** ** C12: the quantization tables in the file *)
Lemma quantizer_min s d i : 1 <= quantizer s d i.
Proof.
  unfold quantizer, quantizer_of, scaled. destruct (d =? 0); [destruct (s_luma s)|destruct (s_chroma s)]; try lia; apply Z.le_max_l.
Qed.
Theorem C12_every_representable : forall P quality calls im pl, let s := settings_of quality calls in
  let color := im_color im in let w := im_width im in let h := im_height im in
  Forall call_wf calls -> valid_buffer P im pl -> (s_optimize s = true -> countable s color w h) ->
  tables_generated s color w h (run_encode_image P quality calls im) ->
  representable int_dct s color pl w h ->
  exists bytes j, exec (run_encode_image P quality calls im) = (bytes, Ok tt) /\ decode bytes = Some j /\
    forall ci c, nth_error (comps_of (s_sampling s) color) ci = Some c ->
    exists table, quant j ci = Some table /\ length table = 64%nat /\
      forall k, 0 <= k < 64 -> let '(v, u) := zigzag_pos k in
        let d := nth (Z.to_nat k) table 0 in
        1 <= d <= 255 /\ d = quantizer s (co_tq c) (Z.of_nat (8 * v + u)) /\
        forall by_ bx, 0 <= by_ < blocks_high (j_frame j) c -> 0 <= bx < blocks_wide (j_frame j) c ->
          coef j ci by_ bx k = Some (int_quantize (8 * d)
            (int_dct (block_sample pl w h (hmax (j_frame j) / co_h c) (vmax (j_frame j) / co_v c) ci by_ bx) v u)).
Proof.
  intros P quality calls im pl s color w h C V Hc Hg R. pose proof R as ((Q & _) & _).
  apply (C46_decodes_iff_image P quality calls im pl C V Hc Hg) in R. destruct R as (bytes & j & E & D & A).
  fold s color w h in A. exists bytes, j. split; [exact E|]. split; [exact D|]. intros ci c Hci.
  eexists. split; [apply (da_quant _ _ _ _ _ _ _ A ci c Hci)|]. split; [rewrite map_length; reflexivity|].
  intros k Hk. destruct (zigzag_pos k) as [v u] eqn:Z0.
  assert (Hd : nth (Z.to_nat k) (map (fun '(v0, u0) => quantizer s (co_tq c) (Z.of_nat (8 * v0 + u0))) zigzag) 0
               = quantizer s (co_tq c) (Z.of_nat (8 * v + u))).
  { set (f := fun '(v0, u0) => quantizer s (co_tq c) (Z.of_nat (8 * v0 + u0))).
    rewrite (nth_indep _ 0 (f (0%nat, 0%nat))).
    - rewrite (map_nth f). unfold zigzag_pos in Z0. rewrite Z0. reflexivity.
    - rewrite map_length. change (length zigzag) with 64%nat. lia. }
  cbv zeta. rewrite Hd. pose proof (zigzag_pos_range k Hk) as Hr. rewrite Z0 in Hr. split; [|split; [reflexivity|]].
  - split; [apply quantizer_min|]. apply Q; [eapply nth_error_In; exact Hci|lia].
  - intros by_ bx Hy Hx. rewrite (da_coef _ _ _ _ _ _ _ A ci c by_ bx k Hci Hy Hx Hk).
    unfold expected. rewrite Z0. rewrite (da_frame _ _ _ _ _ _ _ A). reflexivity.
Qed.

(** ** C25: geometry *)
Theorem C25_every_representable : forall P quality calls im pl, let s := settings_of quality calls in
  let w := im_width im in let h := im_height im in
  Forall call_wf calls -> valid_buffer P im pl -> (s_optimize s = true -> countable s (im_color im) w h) ->
  tables_generated s (im_color im) w h (run_encode_image P quality calls im) ->
  representable int_dct s (im_color im) pl w h ->
  exists bytes j,
    exec (run_encode_image P quality calls im) = (bytes, Ok tt) /\ decode bytes = Some j /\
    fr_width (j_frame j) = w /\ fr_height (j_frame j) = h /\
    fr_comps (j_frame j) = comps_of (s_sampling s) (im_color im) /\
    forall ci c, nth_error (fr_comps (j_frame j)) ci = Some c ->
      let H := hmax (j_frame j) in
      let V := vmax (j_frame j) in
      forall by_ bx k,
        0 <= by_ < ceil_quot (ceil_quot (h * co_v c) V) 8 ->
        0 <= bx < ceil_quot (ceil_quot (w * co_h c) H) 8 ->
        0 <= k < 64 ->
        let '(v, u) := zigzag_pos k in
        coef j ci by_ bx k = Some
          (int_quantize (8 * quantizer s (co_tq c) (Z.of_nat (8 * v + u)))
            (int_dct (fun y x =>
               pl ci (Z.min (h - 1) ((8 * by_ + Z.of_nat y) * (V / co_v c)))
                     (Z.min (w - 1) ((8 * bx + Z.of_nat x) * (H / co_h c))) - 128) v u)).
Proof.
  intros P quality calls im pl s w h C V Hc Hg R.
  apply (C46_decodes_iff_image P quality calls im pl C V Hc Hg) in R. destruct R as (bytes & j & E & D & A).
  exists bytes, j. split; [exact E|]. split; [exact D|]. pose proof (da_frame _ _ _ _ _ _ _ A) as F.
  fold s w h in A, F. rewrite F. repeat split.
  intros ci c Hci H0 V0 by_ bx k Hby Hbx Hk. cbn [frame_for fr_comps] in Hci.
  destruct (zigzag_pos k) as [v u] eqn:Z0.
  rewrite (da_coef _ _ _ _ _ _ _ A ci c by_ bx k Hci).
  - unfold expected. rewrite Z0. reflexivity.
  - rewrite F. exact Hby.
  - rewrite F. exact Hbx.
  - exact Hk.
Qed.

(** ** Concrete cases *)
(** 40 scans, restart interval, custom quantization table. *)
Example every_case : valid_call debug64 60 ex_odd ex_data 3 2 Rgb /\ s_scans (settings_of 60 ex_odd) = Some 40 /\ s_restart (settings_of 60 ex_odd) <> 0.
Proof.
  split; [|split; [reflexivity|discriminate]]. constructor; [exact ex_odd_wf|exact ex_valid|discriminate].
Qed.
(** The uncovered case of C03, in any build. *)
Example every_case_uncovered : forall P, plat_ok P -> valid_call P 90 bad_cfg bad_data 16 8 Luma /\ ~ covered 90 bad_cfg bad_data 16 8 Luma.
Proof.
  intros P HP. destruct bad_config as [C F]. split; [|exact C03_uncovered_case]. constructor; [apply C|now apply bad_valid|intros _; exact (few_countable _ _ _ _ F)].
Qed.
(** Optimized tables and far more than 146,467 data units. *)
Example every_case_large : valid_call debug64 60 opt_cfg (repeat 7 (Z.to_nat (4000 * 4000 * 3))) 4000 4000 Rgb /\
  s_optimize (settings_of 60 opt_cfg) = true /\ ~ few_blocks (settings_of 60 opt_cfg) JYcbcr 4000 4000.
Proof.
  split; [|split; [reflexivity|vm_compute; discriminate]]. constructor.
  - apply C02_config.
  - generalize (eq_refl (Z.to_nat (4000 * 4000 * 3))). generalize (Z.to_nat (4000 * 4000 * 3)) at 1 3. intros n En.
    assert (L : Z.of_nat (length (repeat 7 n)) = 48000000) by (rewrite repeat_length, En, Z2Nat.id by lia; reflexivity).
    clear En. constructor; cbn [ubits debug64 spec_bpp]; [now right| |lia|lia|rewrite L; lia|rewrite L; lia].
    apply Forall_forall. intros x Hx. apply repeat_spec in Hx. subst x. unfold is_u8. lia.
  - intros _. vm_compute. reflexivity.
Qed.
