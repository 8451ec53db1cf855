(** The decoder's result in the vocabulary of the specification. *)
From Verif Require Export PApi.
From Verif Require Import T81.
From Coq Require Import ZifyBool ZifyNat.
Local Ltac Zify.zify_post_hook ::= Z.div_mod_to_equations.

Lemma comps_of_eq s color : map comp_of (init_components s color) = comps_of s color.
Proof. destruct s, color; reflexivity. Qed.

Lemma bands_eq n : 2 <= n <= 64 -> spectral_bands n = map (fun b => (fst b, snd b - 1)) (bands n).
Proof.
  intros Hn. unfold spectral_bands, bands. rewrite map_map. apply map_ext_in. intros i Hi.
  unfold upto in Hi. apply in_map_iff in Hi as (k & <- & Hk). apply in_seq in Hk. cbn [fst snd].
  assert (Hw : 1 <= 64 / (n - 1)) by (apply Z.div_le_lower_bound; lia).
  set (w := 64 / (n - 1)) in *. clearbody w. set (i := Z.of_nat k) in *.
  assert (0 <= i) by lia. clearbody i. clear Hk. f_equal.
  - destruct (i =? 0) eqn:E; [|nia]. replace i with 0 by lia. lia.
  - replace (n - 1 - 1) with (n - 2) by lia. destruct (i =? n - 2); lia.
Qed.

Lemma one_scans_eq s color ss se :
  map (one_scan ss se) (enumerate (init_components s color))
  = single_scans (length (comps_of s color)) (ss, se).
Proof. destruct s, color; reflexivity. Qed.

Lemma body_scans_eq s color : settings_wf s ->
  body_scans (enc_of s) (init_components (s_sampling s) color) = scan_script s color.
Proof.
  intros Hs. pose proof (sw_scans _ Hs) as Hn. unfold body_scans, scan_script.
  cbn [enc_of e_prog e_optimize e_sampling].
  destruct (factors (s_sampling s)) as [h v] eqn:Ef.
  destruct (s_scans s) as [n|].
  - rewrite one_scans_eq. f_equal. rewrite bands_eq by exact Hn. unfold ac_scans.
    rewrite (flat_map_concat_map (single_scans _)), map_map, <- flat_map_concat_map.
    apply flat_map_ext. intros b. apply one_scans_eq.
  - assert (E : supports_interleaved (s_sampling s) = (h <=? 2) && (v <=? 2)).
    { destruct (s_sampling s); inversion Ef; subst; reflexivity. }
    rewrite E, one_scans_eq. rewrite <- comps_of_eq, map_length.
    destruct (s_optimize s), (h <=? 2), (v <=? 2); reflexivity.
Qed.

Lemma frame_for_eq s color w h :
  frame_of (match e_prog (enc_of s) with Some _ => true | None => false end) w h (init_components (s_sampling s) color)
  = frame_for s color w h.
Proof. unfold frame_of, frame_for. now rewrite comps_of_eq. Qed.

Lemma jfif_eq d : density_wf d -> jfif_payload d = jfif d.
Proof.
  intros Hd. destruct d as [|x y|x y]; [reflexivity| |];
    destruct Hd as [Hx Hy]; unfold is_u16 in *; unfold jfif_payload, jfif, u16_bytes;
    cbn [be_bytes app]; cbn -[Z.modulo Z.div Z.pow];
    repeat (f_equal; try (change (2 ^ (8 * 1)) with 256; change (2 ^ (8 * 0)) with 1; lia)).
Qed.

Lemma apps_for_eq s color : settings_wf s -> file_apps (enc_of s) color = apps_for s color.
Proof.
  intros Hw. unfold file_apps, apps_for. cbn [enc_of e_density e_segments].
  rewrite jfif_eq by apply (sw_density _ Hw). destruct color; reflexivity.
Qed.

Lemma restart_of_eq s : restart_of (enc_of s) = s_restart s.
Proof. unfold restart_of. cbn [enc_of e_restart]. destruct (s_restart s =? 0) eqn:E; lia. Qed.

(** Zig-zag *)
Lemma zigzag_eq : map (fun '(v, u) => Z.of_nat (8 * v + u)) zigzag = ZIGZAG.
Proof. vm_compute. reflexivity. Qed.
Lemma zigzag_pos_eq k : 0 <= k < 64 ->
  zn ZIGZAG k = (let '(v, u) := zigzag_pos k in Z.of_nat (8 * v + u)).
Proof.
  intros Hk. rewrite <- zigzag_eq. unfold zn, zigzag_pos.
  change 0 with ((fun '(v, u) => Z.of_nat (8 * v + u)) (0%nat, 0%nat)) at 1.
  rewrite map_nth. reflexivity.
Qed.
Lemma zigzag_pos_range k : 0 <= k < 64 -> let '(v, u) := zigzag_pos k in (v < 8 /\ u < 8)%nat.
Proof.
  intros Hk. assert (H : Forall (fun '(v, u) => (v < 8 /\ u < 8)%nat) zigzag).
  { apply Forall_forall. intros [v u] Hi.
    assert (E : forallb (fun '(v, u) => (v <? 8)%nat && (u <? 8)%nat) zigzag = true) by (vm_compute; reflexivity).
    rewrite forallb_forall in E. specialize (E _ Hi). cbn in E. lia. }
  rewrite Forall_forall in H. unfold zigzag_pos.
  apply (H (nth (Z.to_nat k) zigzag (0%nat, 0%nat))). apply nth_In.
  change (length zigzag) with 64%nat. lia.
Qed.

(** Quantizers *)
Lemma clamp_minmax v a b : a <= b -> clamp v a b = Z.max a (Z.min b v).
Proof. intros H. unfold clamp. destruct (v <? a) eqn:E1; [lia|]. destruct (b <? v) eqn:E2; lia. Qed.

Lemma percent_eq quality : quality_scale quality = percent quality.
Proof.
  unfold quality_scale, percent. rewrite clamp_minmax by lia.
  destruct (Z.max 1 (Z.min 100 quality) <? 50); lia.
Qed.

Lemma quantizer_of_eq t quality luma i : qtype_ok t -> 0 <= i < 64 ->
  zn (quantizers t quality luma) i = quantizer_of t quality luma i.
Proof.
  intros Ht Hi. unfold quantizers, quantizer_of.
  destruct t.
  10:{ rewrite (zn_map _ _ _ 0); [|destruct Ht as [Hl _]; unfold zlen; lia].
       cbn [preset]. rewrite clamp_minmax by lia. reflexivity. }
  all: destruct luma; cbn [base_table preset]; rewrite (zn_map _ _ _ 0) by (change (zlen _) with 64; exact Hi);
    unfold scaled; rewrite <- percent_eq, clamp_minmax by lia; reflexivity.
Qed.

Lemma qt_table_entry t quality luma i : qtype_ok t -> 0 <= i < 64 ->
  zn (qt_table (qtable_of t quality luma)) i = 8 * quantizer_of t quality luma i.
Proof.
  intros Ht Hi. unfold qtable_of. cbn [qt_table]. rewrite (zn_map _ _ _ 0).
  - change (nth (Z.to_nat i) (quantizers t quality luma) 0) with (zn (quantizers t quality luma) i).
    now rewrite quantizer_of_eq.
  - unfold zlen. rewrite quantizers_length by assumption. exact Hi.
Qed.

Lemma recip_eq d : 2 <= d <= 32768 -> compute_reciprocal d = (recip d, bias d).
Proof.
  intros Hd. unfold compute_reciprocal, bias, recip, SHIFT. change (2 ^ 15) with 32768.
  replace (d <=? 1) with false by lia.
  pose proof (Z.div_mod 32768 d ltac:(lia)) as E. pose proof (Z.mod_pos_bound 32768 d ltac:(lia)) as B.
  pose proof (Z.div_mod (2 * 32768 + d - 1) (2 * d) ltac:(lia)) as E2.
  pose proof (Z.mod_pos_bound (2 * 32768 + d - 1) (2 * d) ltac:(lia)) as B2.
  pose proof (Z.div_mod d 2 ltac:(lia)) as E3. pose proof (Z.mod_pos_bound d 2 ltac:(lia)) as B3.
  set (r := 32768 / d) in *. set (f := 32768 mod d) in *. set (r2 := (2 * 32768 + d - 1) / (2 * d)) in *.
  set (m2 := (2 * 32768 + d - 1) mod (2 * d)) in *. set (c := d / 2) in *. set (e := d mod 2) in *.
  clearbody r f r2 m2 c e.
  destruct (f =? 0) eqn:E0; [|destruct (f <=? c) eqn:E1].
  - assert (r2 = r) by nia. subst r2. replace (r * d <? 32768) with false by nia. f_equal; lia.
  - assert (r2 = r) by nia. subst r2. replace (r * d <? 32768) with true by nia. reflexivity.
  - assert (r2 = r + 1) by nia. subst r2. replace ((r + 1) * d <? 32768) with false by nia. f_equal; lia.
Qed.

Lemma int_quantize_eq d v : 2 <= d <= 16384 -> quant_pure d v = int_quantize d v.
Proof.
  intros Hd. unfold quant_pure, quant_abs, int_quantize. rewrite recip_eq by lia. cbn [fst snd].
  destruct (v <? 0) eqn:E.
  - replace (Z.abs v) with (- v) by lia. rewrite Z.sgn_neg by lia. lia.
  - replace (Z.abs v) with v by lia. destruct (Z.eq_dec v 0) as [->|Hn].
    + cbn [Z.sgn]. rewrite Z.mul_0_l. change (2 ^ 15) with 32768. apply Z.div_small.
      unfold bias, recip. change (2 ^ 15) with 32768.
      pose proof (Z.div_mod (2 * 32768 + d - 1) (2 * d) ltac:(lia)) as E2.
      pose proof (Z.mod_pos_bound (2 * 32768 + d - 1) (2 * d) ltac:(lia)) as B2.
      pose proof (Z.div_mod d 2 ltac:(lia)) as E3. pose proof (Z.mod_pos_bound d 2 ltac:(lia)) as B3.
      set (r2 := (2 * 32768 + d - 1) / (2 * d)) in *. set (m2 := (2 * 32768 + d - 1) mod (2 * d)) in *.
      set (c := d / 2) in *. set (e := d mod 2) in *. clearbody r2 m2 c e. clear E.
      assert (0 <= r2) by nia. assert (Hr2 : 2 * (r2 * d) <= 65536 + d - 1) by nia.
      assert (0 <= c) by lia.
      destruct (r2 * d <? 32768) eqn:E4; split; nia.
    + rewrite Z.sgn_pos by lia. lia.
Qed.

(** The transform *)
Definition block_of (s : nat -> nat -> Z) : list Z :=
  map (fun i => s (Z.to_nat (i / 8)) (Z.to_nat (i mod 8))) (zrange 64).

Definition transform_is (F : list Z -> list Z) (T : transform) : Prop :=
  forall s v u, (v < 8)%nat -> (u < 8)%nat -> zn (F (block_of s)) (Z.of_nat (8 * v + u)) = T s v u.

Lemma rdiv_scaled x : rdiv x 2 = round_shift (8192 * x) 15.
Proof. unfold rdiv, round_shift. change (2 ^ (2 - 1)) with 2. change (2 ^ 2) with 4. change (2 ^ (15 - 1)) with 16384. change (2 ^ 15) with 32768. lia. Qed.
Lemma four_scaled x : 4 * x = round_shift (8192 * x) 11.
Proof. unfold round_shift. change (2 ^ (11 - 1)) with 1024. change (2 ^ 11) with 2048. lia. Qed.

Lemma row_pure_dct (f : nat -> Z) u : (u < 8)%nat ->
  zn (row_pure (f 0%nat) (f 1%nat) (f 2%nat) (f 3%nat) (f 4%nat) (f 5%nat) (f 6%nat) (f 7%nat)) (Z.of_nat u)
  = round_shift (sum8 (fun x => dct_entry u x * f x)) 11.
Proof.
  intros Hu. unfold row_pure, zn. rewrite Nat2Z.id.
  do 8 (destruct u as [|u]; [cbn [nth]; unfold sum8, dct_entry, dct_matrix; cbn [nth dct1d u0 u1 u2 u3 u4 u5 u6 u7];
    rewrite ?four_scaled; unfold rdiv; unfold round_shift at 1; unfold round_shift; f_equal; f_equal; ring|]).
  lia.
Qed.
Lemma col_pure_dct (f : nat -> Z) u : (u < 8)%nat ->
  zn (col_pure (f 0%nat) (f 1%nat) (f 2%nat) (f 3%nat) (f 4%nat) (f 5%nat) (f 6%nat) (f 7%nat)) (Z.of_nat u)
  = round_shift (sum8 (fun x => dct_entry u x * f x)) 15.
Proof.
  intros Hu. unfold col_pure, zn. rewrite Nat2Z.id.
  do 8 (destruct u as [|u]; [cbn [nth]; unfold sum8, dct_entry, dct_matrix; cbn [nth dct1d u0 u1 u2 u3 u4 u5 u6 u7];
    rewrite ?rdiv_scaled; unfold rdiv; unfold round_shift at 1; unfold round_shift; f_equal; f_equal; ring|]).
  lia.
Qed.

Lemma zn_block_of s y x : (y < 8)%nat -> (x < 8)%nat -> zn (block_of s) (Z.of_nat (8 * y + x)) = s y x.
Proof.
  intros Hy Hx. unfold block_of. rewrite (zn_map _ _ _ 0) by (unfold zlen, zrange; rewrite map_length, seq_length; lia).
  rewrite Nat2Z.id. rewrite (nth_error_nth _ _ 0 (zrange_nth 64 (8 * y + x) ltac:(lia))).
  replace (Z.to_nat (Z.of_nat (8 * y + x) / 8)) with y by lia.
  replace (Z.to_nat (Z.of_nat (8 * y + x) mod 8)) with x by lia. reflexivity.
Qed.

Lemma sum8_ext f g : (forall i, (i < 8)%nat -> f i = g i) -> sum8 f = sum8 g.
Proof. intros H. unfold sum8. rewrite !H by lia. reflexivity. Qed.

Lemma rows_zn s y x : (y < 8)%nat -> (x < 8)%nat ->
  zn (concat (rows_pure (block_of s))) (8 * Z.of_nat y + Z.of_nat x) = row_dct s y x.
Proof.
  intros Hy Hx. rewrite rows_pure_nth by lia.
  assert (E : forall k, (k < 8)%nat -> zn (block_of s) (Z.of_nat y * 8 + Z.of_nat k) = s y k).
  { intros k Hk. rewrite <- (zn_block_of s y k) by lia. f_equal. lia. }
  pose proof (E 0%nat ltac:(lia)) as E0. pose proof (E 1%nat ltac:(lia)) as E1. pose proof (E 2%nat ltac:(lia)) as E2.
  pose proof (E 3%nat ltac:(lia)) as E3. pose proof (E 4%nat ltac:(lia)) as E4. pose proof (E 5%nat ltac:(lia)) as E5.
  pose proof (E 6%nat ltac:(lia)) as E6. pose proof (E 7%nat ltac:(lia)) as E7.
  cbn [Z.of_nat Pos.of_succ_nat Pos.succ] in E0, E1, E2, E3, E4, E5, E6, E7.
  rewrite ?E0, ?E1, ?E2, ?E3, ?E4, ?E5, ?E6, ?E7. unfold row_dct. apply (row_pure_dct (s y)). exact Hx.
Qed.

Lemma fdct_is_int_dct : transform_is fdct_pure int_dct.
Proof.
  intros s v u Hv Hu. rewrite fdct_pure_nth by lia. cbv zeta.
  replace (Z.of_nat (8 * v + u) mod 8) with (Z.of_nat u) by lia.
  replace (Z.of_nat (8 * v + u) / 8) with (Z.of_nat v) by lia.
  pose proof (rows_zn s 0 u ltac:(lia) Hu) as E0. pose proof (rows_zn s 1 u ltac:(lia) Hu) as E1.
  pose proof (rows_zn s 2 u ltac:(lia) Hu) as E2. pose proof (rows_zn s 3 u ltac:(lia) Hu) as E3.
  pose proof (rows_zn s 4 u ltac:(lia) Hu) as E4. pose proof (rows_zn s 5 u ltac:(lia) Hu) as E5.
  pose proof (rows_zn s 6 u ltac:(lia) Hu) as E6. pose proof (rows_zn s 7 u ltac:(lia) Hu) as E7.
  change (Z.of_nat 0) with 0 in E0. change (Z.of_nat 1) with 1 in E1. change (Z.of_nat 2) with 2 in E2.
  change (Z.of_nat 3) with 3 in E3. change (Z.of_nat 4) with 4 in E4. change (Z.of_nat 5) with 5 in E5.
  change (Z.of_nat 6) with 6 in E6. change (Z.of_nat 7) with 7 in E7.
  rewrite E0, E1, E2, E3, E4, E5, E6, E7.
  apply (col_pure_dct (fun y => row_dct s y u)). exact Hv.
Qed.

Lemma sample_block_eq pl w h hs vs ci by_ bx :
  sample_block pl w h hs vs ci by_ bx = block_of (block_sample pl w h hs vs ci by_ bx).
Proof.
  unfold sample_block, block_of, block_sample. apply map_ext_in. intros i Hi.
  assert (0 <= i < 64) by (apply in_map_iff in Hi as (n & <- & Hn); apply in_seq in Hn; lia).
  rewrite !Z2Nat.id by lia. reflexivity.
Qed.

Lemma table_8bit_eq t : table_8bit t = qtype_8bit t.
Proof. destruct t; reflexivity. Qed.

Section Decoded.
  Variable s : settings.
  Variable Hs : settings_wf s.
  Variable im : image.
  Variable pl : planes.
  Variable Him : image_ok im pl.
  Variable F : list Z -> list Z.
  Variable T : transform.
  Variable HF : transform_is F T.
  Let e := enc_of s.
  Let color := im_color im.
  Let q0 := qtable_of (s_luma s) (e_quality e) true.
  Let q1 := qtable_of (s_chroma s) (e_quality e) false.
  Let cs := init_components (s_sampling s) color.
  Let mh := max_h (s_sampling s) color.
  Let mv := max_v (s_sampling s) color.

  Lemma wf_luma : qtype_ok (s_luma s). Proof. apply (eo_qt0 _ _ _ (enc_of_ok s Hs)). Qed.
  Lemma wf_chroma : qtype_ok (s_chroma s). Proof. apply (eo_qt1 _ _ _ (enc_of_ok s Hs)). Qed.

  Lemma quantizer_entry c i : In c cs -> 0 <= i < 64 ->
    zn (qt_table (qsel q0 q1 c)) i = 8 * quantizer s (c_qt c) i.
  Proof.
    intros Hc Hi. unfold qsel, quantizer. destruct (c_qt c =? 0).
    - apply qt_table_entry; [apply wf_luma|exact Hi].
    - apply qt_table_entry; [apply wf_chroma|exact Hi].
  Qed.

  Lemma cblock_expected i c y x k : nth_error cs i = Some c -> 0 <= k < 64 ->
    zn (cblock im pl F mh mv q0 q1 i c y x) k
    = expected T s color pl (im_width im) (im_height im) i (comp_of c) y x k.
  Proof.
    intros Hc Hk. unfold cblock, coef_block. rewrite qblock_pure_nth by assumption.
    rewrite sample_block_eq. rewrite zigzag_pos_eq by assumption. unfold expected.
    pose proof (zigzag_pos_range k Hk) as Hr. destruct (zigzag_pos k) as [v u]. destruct Hr as [Hv Hu].
    rewrite HF by assumption.
    assert (Hcs : comps_ok cs mh mv) by apply init_components_ok.
    pose proof (hmax_frame (match e_prog e with Some _ => true | None => false end) (im_width im) (im_height im) cs mh mv Hcs) as Eh.
    pose proof (vmax_frame (match e_prog e with Some _ => true | None => false end) (im_width im) (im_height im) cs mh mv Hcs) as Ev.
    unfold e, cs, color in Eh, Ev. rewrite frame_for_eq in Eh, Ev. unfold color. rewrite Eh, Ev.
    assert (Hin : In c cs) by (apply nth_error_In with i; exact Hc).
    rewrite int_quantize_eq.
    - rewrite quantizer_entry by (assumption || lia). destruct c; reflexivity.
    - rewrite quantizer_entry by (assumption || lia).
      assert (Hqo : qtable_ok (qsel q0 q1 c)).
      { unfold qsel. destruct (c_qt c =? 0); apply qtable_of_ok; [apply wf_luma|apply wf_chroma]. }
      destruct (qtable_entry _ (Z.of_nat (8 * v + u)) Hqo ltac:(lia)) as [Hb _].
      rewrite quantizer_entry in Hb by (assumption || lia). lia.
  Qed.

  Variable H80 : table_8bit (s_luma s).
  Variable H81 : table_8bit (s_chroma s).

  Lemma decoded_intro j :
    j_frame j = frame_of (match e_prog e with Some _ => true | None => false end) (im_width im) (im_height im) cs ->
    j_app j = file_apps e color ->
    j_qt j = [Some (map (qt_get q0) ZIGZAG); Some (map (qt_get q1) ZIGZAG); None; None] ->
    j_ri j = restart_of e ->
    log_ok im pl F cs mh mv q0 q1 (j_log j) ->
    j_scans j = body_scans e cs ->
    decoded_with T s color (im_width im) (im_height im) pl j.
  Proof.
    intros Hf Ha Hq Hr Hl Hsc. unfold e, cs in Hf. rewrite frame_for_eq in Hf.
    constructor.
    - exact Hf.
    - rewrite Ha. apply apps_for_eq. exact Hs.
    - rewrite Hr. apply restart_of_eq.
    - rewrite Hsc. now apply body_scans_eq.
    - intros ci c Hc. unfold quant. rewrite Hf. cbn [fr_comps frame_for]. rewrite Hc.
      assert (Htq : co_tq c = 0 \/ co_tq c = 1).
      { apply nth_error_In in Hc. unfold comps_of in Hc. destruct (factors (s_sampling s)) as [fh fv].
        destruct color; cbn in Hc; repeat (destruct Hc as [<-|Hc]; [cbn; auto|]); contradiction. }
      rewrite Hq. unfold slot, quantizer. rewrite table_8bit_eq in H80, H81.
      destruct Htq as [-> | ->]; [change (Z.to_nat 0) with 0%nat|change (Z.to_nat 1) with 1%nat]; cbn [nth_error Z.eqb];
        f_equal; rewrite <- zigzag_eq, map_map; apply map_ext_in; intros [v u] Hi;
        (assert (0 <= Z.of_nat (8 * v + u) < 64);
         [assert (E : forallb (fun '(v, u) => (v <? 8)%nat && (u <? 8)%nat) zigzag = true) by (vm_compute; reflexivity);
          rewrite forallb_forall in E; specialize (E _ Hi); cbn in E; lia|]).
      + unfold q0. rewrite (proj1 (qt_get_small _ _ _ _ wf_luma H80 H)). apply quantizer_of_eq; [apply wf_luma|exact H].
      + unfold q1. rewrite (proj1 (qt_get_small _ _ _ _ wf_chroma H81 H)). apply quantizer_of_eq; [apply wf_chroma|exact H].
    - intros ci c y x k Hc Hy Hx Hk. rewrite coef_coefl.
      rewrite <- comps_of_eq in Hc. rewrite nth_error_map in Hc.
      destruct (nth_error (init_components (s_sampling s) color) ci) as [c'|] eqn:Ec; [|discriminate].
      inversion Hc; subst c. clear Hc. rewrite Hf in Hy, Hx.
      rewrite <- frame_for_eq in Hy, Hx.
      assert (Hcs : comps_ok cs mh mv) by apply init_components_ok.
      rewrite (blocks_high_eq _ _ _ _ mh mv ci c' Hcs Ec) in Hy.
      rewrite (blocks_wide_eq _ _ _ _ mh mv ci c' Hcs Ec) in Hx.
      rewrite (Hl ci c' y x k Ec Hy Hx Hk). f_equal. apply cblock_expected; assumption.
  Qed.
End Decoded.

(** ** Whole files with the standard Huffman tables *)
Section StdFile.
  Variable P : platform.
  Variable HP : plat_ok P.
  Variable s : settings.
  Variable Hs : settings_wf s.
  Variable H80 : table_8bit (s_luma s).
  Variable H81 : table_8bit (s_chroma s).
  Variable Hopt : s_optimize s = false.
  Variable Hscans : match s_scans s with Some n => n <= 33 | None => True end.

  Lemma std_image_with op F T im pl : op_ok op F -> transform_is F T -> image_ok im pl ->
    im_width im * im_height im < 2 ^ (ubits P - 1) ->
    exists bytes j,
      emits (encode_image_internal P op (enc_of s) im) bytes tt /\ bytes_ok bytes /\
      decode bytes = Some j /\
      decoded_with T s (im_color im) (im_width im) (im_height im) pl j.
  Proof.
    intros Hop HF Him Hfit.
    pose proof H80 as H80'. pose proof H81 as H81'. rewrite table_8bit_eq in H80', H81'.
    destruct (std_round_trip P HP im pl Him op F Hop Hfit (enc_of s) (s_luma s) (s_chroma s)
                (enc_of_ok s Hs) H80' H81' Hopt Hscans) as (bytes & j & E & Hb & Hd & H1 & H2 & H3 & H4 & H5 & H6).
    exists bytes, j. repeat split; try assumption.
    all: destruct (decoded_intro s Hs im pl F T HF H80 H81 j H1 H2 H3 H4 H5 H6); assumption.
  Qed.
End StdFile.

Lemma valid_fits P data w h c : valid_input P data w h c -> w * h < 2 ^ (ubits P - 1) /\ 0 <= w * h * spec_bpp c < 2 ^ (ubits P - 1).
Proof.
  intros V. pose proof (vi_enough _ _ _ _ _ V). pose proof (vi_slice _ _ _ _ _ V).
  pose proof (vi_width _ _ _ _ _ V). pose proof (vi_height _ _ _ _ _ V).
  assert (1 <= spec_bpp c) by (destruct c; cbn; lia). assert (0 <= w * h) by nia. nia.
Qed.

Lemma encode_valid P e data w h c : valid_input P data w h c ->
  encode P e data w h c = encode_image P e (image_of P data w h c).
Proof.
  intros V. destruct (valid_fits _ _ _ _ _ V) as [F1 F2].
  pose proof (vi_enough _ _ _ _ _ V) as H1. pose proof (vi_width _ _ _ _ _ V). pose proof (vi_height _ _ _ _ _ V).
  assert (Hu : 2 ^ (ubits P - 1) < 2 ^ ubits P).
  { destruct (vi_platform _ _ _ _ _ V) as [-> | ->]; reflexivity. }
  unfold encode, ck_usize. rewrite ck_u_ret by nia. cbn [bind]. rewrite spec_bpp_eq.
  rewrite ck_u_ret by lia. cbn [bind]. unfold zlen.
  replace (Z.of_nat (length data) <? w * h * spec_bpp c) with false by lia. reflexivity.
Qed.

Lemma valid_image P data w h c : valid_input P data w h c -> image_ok (image_of P data w h c) (spec_plane c data w).
Proof.
  intros V. apply image_of_ok; try apply V.
Qed.

(** The whole run for a valid input, given what the internal encoder does. *)
Lemma run_encode_eq P quality calls data w h c : Forall call_wf calls -> valid_input P data w h c ->
  run_encode P quality calls data w h c
  = encode_image_internal P default_operations (enc_of (settings_of quality calls)) (image_of P data w h c).
Proof.
  intros Hc V. unfold run_encode. rewrite build_ret by assumption. cbn [bind]. now rewrite encode_valid.
Qed.
Lemma run_encode_image_eq P quality calls im : Forall call_wf calls ->
  run_encode_image P quality calls im
  = encode_image_internal P default_operations (enc_of (settings_of quality calls)) im.
Proof. intros Hc. unfold run_encode_image. rewrite build_ret by assumption. reflexivity. Qed.

Theorem encode_image_round_trip P quality calls im pl : std_config quality calls -> valid_buffer P im pl ->
  exists bytes j,
    exec (run_encode_image P quality calls im) = (bytes, Ok tt) /\ Forall is_u8 bytes /\
    decode bytes = Some j /\
    decoded_as (settings_of quality calls) (im_color im) (im_width im) (im_height im) pl j.
Proof.
  intros C V. rewrite run_encode_image_eq by apply C.
  exact (std_image_with P (vb_platform _ _ _ V) _ (settings_of_wf quality calls (sc_calls _ _ C))
    (sc_luma _ _ C) (sc_chroma _ _ C) (sc_huffman _ _ C) (sc_scans _ _ C)
    default_operations fdct_pure int_dct im pl default_op_ok fdct_is_int_dct (vb_image _ _ _ V) (vb_fits _ _ _ V)).
Qed.

Theorem encode_round_trip P quality calls data w h c : std_config quality calls -> valid_input P data w h c ->
  exists bytes j,
    exec (run_encode P quality calls data w h c) = (bytes, Ok tt) /\ Forall is_u8 bytes /\
    decode bytes = Some j /\
    decoded_as (settings_of quality calls) (spec_color c) w h (spec_plane c data w) j.
Proof.
  intros C V. rewrite run_encode_eq by (apply C || assumption).
  destruct (std_image_with P (vi_platform _ _ _ _ _ V) _ (settings_of_wf quality calls (sc_calls _ _ C))
    (sc_luma _ _ C) (sc_chroma _ _ C) (sc_huffman _ _ C) (sc_scans _ _ C)
    default_operations fdct_pure int_dct _ _ default_op_ok fdct_is_int_dct (valid_image _ _ _ _ _ V)) as (b & j & H).
  { rewrite image_of_width, image_of_height. apply (valid_fits _ _ _ _ _ V). }
  exists b, j. rewrite image_of_width, image_of_height, image_of_color in H. exact H.
Qed.
