(** C78: the first rows settle the first part of the file, whatever the height of the image is. *)
From Verif Require Import ThmApi ThmGrey.
From Verif Require Import MAvx2 T81 SFile SApi SEncode SHuff SMeta SLocal SPad SSize SStart SHeight PBits PBytesI PScan PQuant PApi PExec PEncode PBytes PBytesF PRound PGeom PAll PPad PAvxDct ThmRound ThmAvx2 ThmAll ThmLocal ThmPad ThmSizeS ThmStrip ThmBright ThmUnbroken ThmStart.
From Coq Require Import ZArith List Bool Lia ZifyBool ZifyNat.
Import ListNotations.
Open Scope Z_scope.

Lemma heights_expected F T (HF : transform_is F T) s color w h1 h2 pl1 pl2 n ci c y x i : 1 <= w -> n <= h1 -> n <= h2 -> same_plane_rows color pl1 pl2 w n ->
  nth_error (comps_of (s_sampling s) color) ci = Some c -> 0 <= y -> 0 <= x -> top (frame_for s color w h1) c (y + 1) <= n -> 0 <= i < 64 ->
  expected T s color pl1 w h1 ci c y x i = expected T s color pl2 w h2 ci c y x i.
Proof.
  intros Hw Hh1 Hh2 Hc N Hy Hx Hn Hi. pose proof (comps_count _ _ _ _ N) as Hm. destruct (steps_exact s color w h1 c (nth_error_In _ _ N)) as (_ & _ & Px & Py & _).
  unfold expected. set (f := frame_for s color w h1) in *. change (hmax f / co_h c) with (step_x f c). change (vmax f / co_v c) with (step_y f c).
  change (hmax (frame_for s color w h2) / co_h c) with (step_x f c). change (vmax (frame_for s color w h2) / co_v c) with (step_y f c). unfold top in Hn.
  pose proof (zigzag_pos_range i Hi) as Hz. destruct (zigzag_pos i) as [v u]. f_equal.
  apply (transform_ext F T _ _ v u HF); [apply Hz|apply Hz|]. intros y' x' Hy' Hx'. unfold block_sample. f_equal.
  set (sx := step_x f c) in *. set (sy := step_y f c) in *. clearbody sx sy.
  assert (Hr : 0 <= (8 * y + Z.of_nat y') * sy < 8 * (y + 1) * sy).
  { split; [apply Z.mul_nonneg_nonneg; lia|]. apply Z.mul_lt_mono_pos_r; lia. }
  assert (Hs : 0 <= (8 * x + Z.of_nat x') * sx) by (apply Z.mul_nonneg_nonneg; lia).
  rewrite (Z.min_r (h1 - 1)) by lia. rewrite (Z.min_r (h2 - 1)) by lia.
  apply Hc; [exact Hm| |]; lia.
Qed.

Lemma group_firstn {A} r : (0 < r)%nat -> forall n fuel1 fuel2 (l1 l2 : list A), (length l1 <= fuel1)%nat -> (length l2 <= fuel2)%nat ->
  (n * r <= length l1)%nat -> (n * r <= length l2)%nat -> firstn (n * r) l1 = firstn (n * r) l2 -> firstn n (group fuel1 r l1) = firstn n (group fuel2 r l2).
Proof.
  intros Hr. induction n as [|n IH]; intros fuel1 fuel2 l1 l2 F1 F2 L1 L2 E; [reflexivity|]. cbn [Nat.mul] in *.
  assert (E1 : firstn r l1 = firstn r l2).
  { replace r with (Nat.min r (r + n * r)) at 1 2 by lia. rewrite <- !firstn_firstn. now rewrite E. }
  assert (E2 : firstn (n * r) (skipn r l1) = firstn (n * r) (skipn r l2)).
  { replace (n * r)%nat with (r + n * r - r)%nat by lia. rewrite <- !skipn_firstn_comm. now rewrite E. }
  destruct l1 as [|a l1]; [cbn in L1; lia|]. destruct l2 as [|b l2]; [cbn in L2; lia|]. destruct fuel1 as [|fuel1]; [cbn in F1; lia|]. destruct fuel2 as [|fuel2]; [cbn in F2; lia|].
  cbn [group firstn]. f_equal; [exact E1|]. apply IH; rewrite ?skipn_length; cbn [length] in *; try lia. exact E2.
Qed.
Lemma over_firstn {A} ri k (l1 l2 : list A) : 0 <= ri -> (1 <= k <= length l1)%nat -> (1 <= k <= length l2)%nat -> firstn k l1 = firstn k l2 ->
  firstn (over ri k) (intervals ri l1) = firstn (over ri k) (intervals ri l2).
Proof.
  intros Hri H1 H2 E. unfold intervals, over. destruct (Z.eqb_spec ri 0) as [->|N]; [reflexivity|].
  set (r := Z.to_nat ri). assert (Pr : (0 < r)%nat) by lia. clearbody r.
  assert (L : ((k - 1) / r * r <= k)%nat) by (pose proof (Nat.div_mod (k - 1) r ltac:(lia)); rewrite (Nat.mul_comm _ r); lia).
  set (n := ((k - 1) / r)%nat) in *. clearbody n.
  apply group_firstn; try assumption; try lia. replace (n * r)%nat with (Nat.min (n * r) k) by lia. rewrite <- !firstn_firstn. now rewrite E.
Qed.

Lemma height_core P1 P2 op F T s im1 im2 pl1 pl2 si more k n : settings_wf s -> s_optimize s = false -> op_ok op F -> transform_is F T ->
  plat_ok P1 -> plat_ok P2 -> image_ok im1 pl1 -> image_ok im2 pl2 ->
  im_width im1 * im_height im1 < 2 ^ (ubits P1 - 1) -> im_width im2 * im_height im2 < 2 ^ (ubits P2 - 1) ->
  im_color im2 = im_color im1 -> im_width im2 = im_width im1 -> n <= im_height im1 -> n <= im_height im2 ->
  scan_script s (im_color im1) = si :: more ->
  same_first_mcus (frame_for s (im_color im1) (im_width im1) (im_height im1)) (frame_for s (im_color im1) (im_width im1) (im_height im2)) si k ->
  within_rows (frame_for s (im_color im1) (im_width im1) (im_height im1)) si k n ->
  same_plane_rows (im_color im1) pl1 pl2 (im_width im1) n ->
  exists bytes1 bytes2, exec (encode_image_internal P1 op (enc_of s) im1) = (bytes1, Ok tt) /\ exec (encode_image_internal P2 op (enc_of s) im2) = (bytes2, Ok tt) /\
    same_start_heights T s (im_color im1) pl1 (im_width im1) (im_height im1) (im_height im2) si k bytes1 bytes2.
Proof.
  intros Hs O Hop HF HP1 HP2 I1 I2 Hf1 Hf2 Ec Ew Hn1 Hn2 Hsi (HL1 & HL2 & HE) Hk Hpl.
  pose proof (std_bytes_with P1 HP1 s Hs O op F T im1 pl1 Hop HF I1 Hf1) as B1. pose proof (std_bytes_with P2 HP2 s Hs O op F T im2 pl2 Hop HF I2 Hf2) as B2. unfold emits in B1, B2.
  eexists. eexists. split; [exact B1|]. split; [exact B2|]. clear B1 B2.
  assert (Hw : 1 <= im_width im1) by apply I1.
  pose proof (script_band s (im_color im1) si Hs ltac:(rewrite Hsi; now left)) as (Hss & Hse & _).
  assert (E2 : spec_cf s T im2 pl2 = coefficients_of T s (im_color im1) pl2 (im_width im1) (im_height im2)) by (unfold spec_cf, coefficients_of; rewrite Ec, Ew; reflexivity).
  assert (E1 : spec_cf s T im1 pl1 = coefficients_of T s (im_color im1) pl1 (im_width im1) (im_height im1)) by reflexivity.
  rewrite ?E1, ?E2, ?Ec, ?Ew. clear E1 E2 Ec Ew I1 I2 Hf1 Hf2.
  set (color := im_color im1) in *. set (w := im_width im1) in *. set (h1 := im_height im1) in *. set (h2 := im_height im2) in *. clearbody color w h1 h2.
  set (f := frame_for s color w h1) in *. set (f2 := frame_for s color w h2) in *.
  pose (codes := fun pl h mcus => encode_units (comp_table f (tb_dc annexK_tables)) (comp_table f (tb_ac annexK_tables)) (si_ss si) (si_se si)
    (coefficients_of T s color pl w h) (fun _ => 0) (concat mcus)).
  assert (UE : forall mcus, incl mcus (firstn k (mcus_of f si)) -> codes pl2 h2 mcus = codes pl1 h1 mcus).
  { intros mcus HI. symmetry. apply units_same; [lia|lia|]. intros ci y x I i Hi.
    assert (I0 : In (ci, y, x) (first_units f si k)).
    { unfold first_units. apply in_concat in I as (g & Hg & I). apply in_concat. exists g. split; [now apply HI|exact I]. }
    assert (I' : In (ci, y, x) (concat (mcus_of f si))) by (rewrite (first_split f si k); apply in_or_app; now left).
    destruct (units_in s color 0 (fun _ _ _ _ => 0) (fun _ _ _ _ => 0) (fun _ _ _ _ => 0) ltac:(reflexivity) ltac:(reflexivity) f si ci y x eq_refl I') as (c & N & Hy & Hx & _). unfold coefficients_of. fold f. fold f2.
    change (fr_comps f2) with (comps_of (s_sampling s) color). change (fr_comps f) with (comps_of (s_sampling s) color). rewrite N.
    apply (heights_expected F T HF s color w h1 h2 pl1 pl2 n); try assumption. exact (Hk ci y x c I0 N). }
  assert (Hri : 0 <= s_restart s) by (pose proof (sw_restart s Hs) as R; unfold is_u16 in R; lia).
  destruct (interval_of (s_restart s) k (mcus_of f si) Hri HL1) as (x & rest & EI & HI).
  destruct (interval_of (s_restart s) k (mcus_of f2 si) Hri HL2) as (x2 & rest' & EI2 & _). rewrite <- HE in EI2.
  rewrite <- (over_firstn (s_restart s) k (mcus_of f si) (mcus_of f2 si) Hri HL1 HL2 HE) in EI2.
  set (m := over (s_restart s) k) in *. set (tail := skipn (m * Z.to_nat (s_restart s)) (firstn k (mcus_of f si))) in *.
  assert (HT : incl tail (firstn k (mcus_of f si))) by (intros a Ha; rewrite <- (firstn_skipn (m * Z.to_nat (s_restart s)) (firstn k (mcus_of f si))); apply in_or_app; right; exact Ha).
  destruct (pack_start (codes pl1 h1 tail)) as (data & left & ED & HLen & HB).
  set (gs := firstn m (intervals (s_restart s) (mcus_of f si))) in *.
  assert (WE : map (fun mcus => pack (codes pl2 h2 mcus)) gs = map (fun mcus => pack (codes pl1 h1 mcus)) gs).
  { apply map_ext_in. intros g Hg. f_equal. apply UE. intros a Ha. apply HI. apply in_concat. exists g. split; assumption. }
  set (whole := map (fun mcus => pack (codes pl1 h1 mcus)) gs) in *.
  assert (SD : forall pl h x rest, codes pl h tail = codes pl1 h1 tail -> map (fun mcus => pack (codes pl h mcus)) gs = whole ->
    intervals (s_restart s) (mcus_of (frame_for s color w h) si) = gs ++ (tail ++ x) :: rest ->
    exists rest, coded_data 0 (scan_data annexK_tables (frame_for s color w h) (s_restart s) (coefficients_of T s color pl w h) si) = (closed_intervals 0 whole ++ stuffed data) ++ rest).
  { clear x rest x2 rest' EI EI2. intros pl h x rest E1 E2 EI. change (scan_data annexK_tables (frame_for s color w h) (s_restart s) (coefficients_of T s color pl w h) si) with (map (fun mcus => pack (codes pl h mcus)) (intervals (s_restart s) (mcus_of (frame_for s color w h) si))).
    rewrite EI, map_app. rewrite E2. cbn [map].
    assert (EA : exists B, codes pl h (tail ++ x) = codes pl h tail ++ B) by (unfold codes; rewrite concat_app, encode_units_app; eexists; reflexivity).
    destruct EA as (B & ->). rewrite E1. destruct (HB B) as (r & ->).
    destruct (coded_closed whole 0 (data ++ r) (map (fun mcus => pack (codes pl h mcus)) rest)) as (r' & ->). exists (stuffed r ++ r'). rewrite stuffed_app, <- !app_assoc. reflexivity. }
  destruct (SD pl1 h1 x rest eq_refl eq_refl EI) as (r1 & S1). destruct (SD pl2 h2 x2 rest' (UE tail HT) WE EI2) as (r2 & S2). clear SD HB UE WE EI EI2 HI HT.
  unfold same_start_heights. fold f.
  pose (before := map (fun '(nr, data) => Segment (224 + nr) data) (apps_for s color)).
  pose (after := [dqt s 0; dqt s 1; dht 0 0 (tb_dc annexK_tables 0); dht 1 0 (tb_ac annexK_tables 0)] ++
    (if (3 <=? length (fr_comps f))%nat then [dht 0 1 (tb_dc annexK_tables 1); dht 1 1 (tb_ac annexK_tables 1)] else []) ++ dri (s_restart s)).
  pose (fh := u16_bytes w ++ [Z.of_nat (length (fr_comps f))] ++ flat_map (fun c => [co_id c; 16 * co_h c + co_v c; co_tq c]) (fr_comps f)).
  exists before, (if fr_progressive f then 194 else 192), fh, after, (scan_header f si), data, left.
  assert (G : forall pl h r, coded_data 0 (scan_data annexK_tables (frame_for s color w h) (s_restart s) (coefficients_of T s color pl w h) si) = (closed_intervals 0 whole ++ stuffed data) ++ r ->
    exists rest, render_file (file_parts annexK_tables s (frame_for s color w h) color (coefficients_of T s color pl w h)) =
      ([255; 216] ++ flat_map render before ++ render (Segment (if fr_progressive f then 194 else 192) (8 :: u16_bytes h ++ fh)) ++ flat_map render after ++
      [255; 218] ++ length_field (scan_header f si) ++ scan_header f si ++ closed_intervals 0 whole ++ stuffed data) ++ rest).
  { intros pl h r E. unfold render_file.
    assert (FP : file_parts annexK_tables s (frame_for s color w h) color (coefficients_of T s color pl w h) =
      before ++ [Segment (if fr_progressive f then 194 else 192) (8 :: u16_bytes h ++ fh)] ++ after ++ [Scan (scan_header f si) (scan_data annexK_tables (frame_for s color w h) (s_restart s) (coefficients_of T s color pl w h) si)] ++
      map (fun si0 => Scan (scan_header f si0) (scan_data annexK_tables (frame_for s color w h) (s_restart s) (coefficients_of T s color pl w h) si0)) more).
    { unfold file_parts. rewrite Hsi. unfold after. rewrite <- !app_assoc. reflexivity. }
    rewrite FP. clear FP. clearbody before after fh.
    exists (r ++ flat_map render (map (fun si0 => Scan (scan_header f si0) (scan_data annexK_tables (frame_for s color w h) (s_restart s) (coefficients_of T s color pl w h) si0)) more) ++ [255; 217]).
    rewrite !flat_map_app. cbn [flat_map]. rewrite !app_nil_r. 
    match goal with |- context [render (Scan ?a ?b)] => change (render (Scan a b)) with ([255; 218] ++ length_field a ++ a ++ coded_data 0 b) end.
    rewrite E. rewrite <- !app_assoc. reflexivity. }
  destruct (G pl1 h1 r1 S1) as (rest1 & G1). destruct (G pl2 h2 r2 S2) as (rest2 & G2). exists rest1, rest2.
  split; [|split; [destruct (fr_progressive f); auto|split; [split; [exact G1|exact G2]|split; [exact ED|exact HLen]]]].
  intros p Hp. unfold before, after in Hp. rewrite !in_app_iff in Hp. destruct Hp as [Hp|[Hp|[Hp|Hp]]].
  - apply in_map_iff in Hp as ([nr d] & <- & _). eauto.
  - cbn [In] in Hp. unfold dqt, dht in Hp. repeat (destruct Hp as [<-|Hp]; [eauto|]). destruct Hp.
  - destruct (3 <=? _)%nat; [|destruct Hp]. cbn [In] in Hp. unfold dht in Hp. repeat (destruct Hp as [<-|Hp]; [eauto|]). destruct Hp.
  - unfold dri in Hp. destruct (s_restart s =? 0); [destruct Hp|]. destruct Hp as [<-|[]]. eauto.
Qed.

(** ** Whole rows of MCUs *)
Lemma seq_firstn m : forall l a, (m <= l)%nat -> firstn m (seq a l) = seq a m.
Proof. induction m as [|m IH]; intros l a H; [reflexivity|]. destruct l as [|l]; [lia|]. cbn [seq firstn]. f_equal. apply IH. lia. Qed.
Lemma upto_firstn m n : 0 <= m <= n -> firstn (Z.to_nat m) (upto n) = upto m.
Proof. intros H. unfold upto. rewrite firstn_map, seq_firstn by lia. reflexivity. Qed.
Lemma in_upto i n : In i (upto n) -> 0 <= i < n.
Proof. unfold upto. intros H. apply in_map_iff in H as (j & <- & Hj). apply in_seq in Hj. lia. Qed.
Lemma flat_columns {A} (g : Z -> Z -> A) wd m n : 0 <= m <= n -> 0 <= wd -> firstn (Z.to_nat (m * wd)) (flat_map (fun y => map (g y) (upto wd)) (upto n)) = flat_map (fun y => map (g y) (upto wd)) (upto m).
Proof.
  intros Hm Hw. rewrite Z2Nat.inj_mul by lia. rewrite firstn_flat by (intros a _; unfold upto; rewrite !map_length, seq_length; reflexivity).
  rewrite upto_firstn by exact Hm. reflexivity.
Qed.
Lemma flat_columns_length {A} (g : Z -> Z -> A) wd n : 0 <= wd -> 0 <= n -> Z.of_nat (length (flat_map (fun y => map (g y) (upto wd)) (upto n))) = n * wd.
Proof.
  intros Hw Hn. rewrite <- (firstn_all (flat_map _ _)). 
  assert (L : forall l, length (flat_map (fun y => map (g y) (upto wd)) l) = (length l * Z.to_nat wd)%nat).
  { induction l as [|a l IH]; [reflexivity|]. cbn [flat_map length]. rewrite app_length, IH. unfold upto at 1. rewrite !map_length, seq_length. lia. }
  rewrite firstn_all, L. unfold upto. rewrite map_length, seq_length. nia.
Qed.
Lemma mul_cdiv m a b : 0 < b -> b * m <= a -> m <= cdiv a b.
Proof. intros Hb H. unfold cdiv. apply Z.div_le_lower_bound; lia. Qed.

(** A scan of one component or of interleaved ones, with the entries in rows. *)
Lemma scan_shape s color w h1 si : 0 <= w -> 
  let f := frame_for s color w h1 in 
  exists g : Z -> Z -> list unit_pos, forall h2 m, let f2 := frame_for s color w h2 in 0 <= m -> mcu_rows f si * m <= h2 ->
    (exists n, m <= n /\ mcus_of f2 si = flat_map (fun y => map (g y) (upto (mcu_columns f si))) (upto n)) /\
    forall my mx ci y x c, 0 <= my < m -> In (ci, y, x) (g my mx) -> nth_error (fr_comps f) ci = Some c -> top f c (y + 1) <= mcu_rows f si * m.
Proof.
  intros Hw f. pose proof (vmax_positive s color w h1) as PV. fold f in PV.
  unfold mcu_rows, mcu_columns, mcus_of.
  set (cc := flat_map (fun ci => match nth_error (fr_comps f) ci with Some c => [(ci, c)] | None => [] end) (si_comps si)).
  assert (EC : flat_map (fun ci => match nth_error (fr_comps f) ci with Some c => [c] | None => [] end) (si_comps si) = map snd cc).
  { unfold cc. induction (si_comps si) as [|a l IH]; [reflexivity|]. cbn [flat_map]. rewrite map_app, <- IH. f_equal. destruct (nth_error (fr_comps f) a); reflexivity. }
  assert (W : forall ci c, In (ci, c) cc -> nth_error (fr_comps f) ci = Some c).
  { intros ci c H. unfold cc in H. apply in_flat_map in H as (i & _ & H). destruct (nth_error (fr_comps f) i) eqn:E; [|destruct H]. destruct H as [H|[]]. congruence. }
  rewrite EC. clear EC.
  assert (K : exists g : Z -> Z -> list unit_pos, forall h2 m, let f2 := frame_for s color w h2 in 0 <= m -> match map snd cc with [c] => 8 * step_y f c | _ => 8 * vmax f end * m <= h2 ->
    (exists n, m <= n /\ scan_mcus f2 cc = flat_map (fun y => map (g y) (upto match map snd cc with [c] => blocks_wide f c | _ => mcus_wide f end)) (upto n)) /\
    forall my mx ci y x c, 0 <= my < m -> In (ci, y, x) (g my mx) -> nth_error (fr_comps f) ci = Some c -> top f c (y + 1) <= match map snd cc with [c] => 8 * step_y f c | _ => 8 * vmax f end * m); [|exact K].
  clearbody cc.
  assert (GI : exists g : Z -> Z -> list unit_pos, forall h2 m, let f2 := frame_for s color w h2 in 0 <= m -> 8 * vmax f * m <= h2 ->
    (exists n, m <= n /\ interleaved_mcus f2 cc = flat_map (fun y => map (g y) (upto (mcus_wide f))) (upto n)) /\
    forall my mx ci y x c, 0 <= my < m -> In (ci, y, x) (g my mx) -> nth_error (fr_comps f) ci = Some c -> top f c (y + 1) <= 8 * vmax f * m).
  { exists (fun my mx => flat_map (fun '(ci, c) => flat_map (fun v => map (fun h => (ci, my * co_v c + v, mx * co_h c + h)) (upto (co_h c))) (upto (co_v c))) cc).
    intros h2 m f2 Hm Hh. split.
    - exists (mcus_high f2). split; [|reflexivity]. apply mul_cdiv; [change (vmax f2) with (vmax f); lia|exact Hh].
    - intros my mx ci y x c Hy I N. apply in_flat_map in I as ([ci' c'] & Hc & I). apply in_flat_map in I as (v & Hv & I). apply in_map_iff in I as (hh & Hh' & _). injection Hh' as <- <- <-.
      pose proof (W _ _ Hc) as N'. rewrite N in N'. injection N' as <-.
      destruct (steps_exact s color w h1 c (nth_error_In _ _ N)) as (Ph & Pv & Px & Py & _ & Eyy). fold f in Px, Py, Eyy. unfold top. apply in_upto in Hv.
      rewrite Eyy. replace (8 * (step_y f c * co_v c) * m) with (8 * (m * co_v c) * step_y f c) by ring.
      apply Z.mul_le_mono_nonneg_r; [lia|]. nia. }
  unfold scan_mcus. destruct cc as [|[c1 d1] [|[c2 d2] l]]; cbn [map snd]; [exact GI| |exact GI].
  clear GI. exists (fun my mx => [(c1, my, mx)]). intros h2 m Hm Hh. set (f2 := frame_for s color w h2).
  destruct (steps_exact s color w h1 d1 (nth_error_In _ _ (W c1 d1 (or_introl eq_refl)))) as (Ph & Pv & Px & Py & _ & Eyy). fold f in Px, Py, Eyy. split.
  - exists (blocks_high f2 d1). split; [|reflexivity]. unfold blocks_high, comp_height. change (vmax f2) with (vmax f). cbn [f2 frame_for fr_height].
    apply mul_cdiv; [lia|]. apply mul_cdiv; [lia|]. rewrite Eyy. nia.
  - intros my mx ci y x c Hy [I|[]] N. injection I as <- <- <-. rewrite (W c1 d1 (or_introl eq_refl)) in N. injection N as <-. unfold top. nia.
Qed.
Theorem C78_whole_rows : forall s color w h1 h2 si m k, 0 <= w -> let f := frame_for s color w h1 in let n := mcu_rows f si * m in
  0 <= m -> n <= h1 -> n <= h2 -> (1 <= k)%nat -> Z.of_nat k <= m * mcu_columns f si ->
  same_first_mcus f (frame_for s color w h2) si k /\ within_rows f si k n.
Proof.
  intros s color w h1 h2 si m k Hw f n Hm Hn1 Hn2 Hk1 Hk. assert (HC : 0 <= mcu_columns f si) by nia.
  destruct (scan_shape s color w h1 si Hw) as (g & G). fold f in G.
  destruct (G h1 m Hm Hn1) as ((n1 & L1 & E1) & GC). destruct (G h2 m Hm Hn2) as ((n2 & L2 & E2) & _). clear G. fold f in E1.
  assert (B : forall n', m <= n' -> (1 <= k <= length (flat_map (fun y => map (g y) (upto (mcu_columns f si))) (upto n')))%nat /\
    firstn k (flat_map (fun y => map (g y) (upto (mcu_columns f si))) (upto n')) = firstn k (flat_map (fun y => map (g y) (upto (mcu_columns f si))) (upto m))).
  { intros n' Hn'. pose proof (flat_columns_length g (mcu_columns f si) n' HC ltac:(lia)) as L. split; [split; [exact Hk1|nia]|].
    rewrite <- (flat_columns g (mcu_columns f si) m n') by lia. rewrite firstn_firstn. f_equal. lia. }
  destruct (B n1 L1) as (K1 & F1). destruct (B n2 L2) as (K2 & F2). rewrite <- E1 in K1, F1. rewrite <- E2 in K2, F2.
  split; [split; [exact K1|split; [exact K2|congruence]]|].
  intros ci y x c I N. unfold first_units in I. rewrite F1 in I. apply in_concat in I as (u & Hu & I).
  assert (Hu' : In u (flat_map (fun y => map (g y) (upto (mcu_columns f si))) (upto m))) by (rewrite <- (firstn_skipn k); apply in_or_app; now left).
  apply in_flat_map in Hu' as (my & Hmy & Hu'). apply in_map_iff in Hu' as (mx & <- & _). apply in_upto in Hmy.
  exact (GC my mx ci y x c Hmy I N).
Qed.

(** ** C78
    Two images of the same width, of any heights, with the same first [n] rows, standard Huffman tables: both calls
    succeed, and the files have all the bytes up to the end of the first [k] MCUs in common, except for the height. *)
Definition runs_start_heights (T : transform) (s : settings) (color : jcolor) (pl : planes) (w h1 h2 : Z) (k : nat) (n : Z) (run1 run2 : list Z * outcome unit) : Prop :=
  forall si more, scan_script s color = si :: more -> same_first_mcus (frame_for s color w h1) (frame_for s color w h2) si k -> within_rows (frame_for s color w h1) si k n ->
  exists bytes1 bytes2, run1 = (bytes1, Ok tt) /\ run2 = (bytes2, Ok tt) /\ same_start_heights T s color pl w h1 h2 si k bytes1 bytes2.
Theorem C78_heights : forall P1 P2 quality calls data1 data2 w h1 h2 c k n, let s := settings_of quality calls in
  Forall call_wf calls -> s_optimize s = false -> valid_input P1 data1 w h1 c -> valid_input P2 data2 w h2 c ->
  n <= h1 -> n <= h2 -> same_rows c data1 data2 w n ->
  runs_start_heights int_dct s (spec_color c) (spec_plane c data1 w) w h1 h2 k n (exec (run_encode P1 quality calls data1 w h1 c)) (exec (run_encode P2 quality calls data2 w h2 c)).
Proof.
  intros P1 P2 quality calls data1 data2 w h1 h2 c k n s C O V1 V2 Hn1 Hn2 Hr si more Hsi HL Hk. rewrite !run_encode_eq by assumption. fold s.
  pose proof (height_core P1 P2 default_operations fdct_pure int_dct s _ _ _ _ si more k n (settings_of_wf quality calls C) O default_op_ok fdct_is_int_dct
    (vi_platform _ _ _ _ _ V1) (vi_platform _ _ _ _ _ V2) (valid_image _ _ _ _ _ V1) (valid_image _ _ _ _ _ V2)) as G.
  rewrite !image_of_width, !image_of_height, !image_of_color in G.
  exact (G (proj1 (valid_fits _ _ _ _ _ V1)) (proj1 (valid_fits _ _ _ _ _ V2)) eq_refl eq_refl Hn1 Hn2 Hsi HL Hk (rows_plane c data1 data2 w n Hr)).
Qed.
Theorem C78_heights_simd : forall P1 P2 quality calls data1 data2 w h1 h2 c k n, let s := settings_of quality calls in
  Forall call_wf calls -> s_optimize s = false -> valid_input P1 data1 w h1 c -> valid_input P2 data2 w h2 c ->
  n <= h1 -> n <= h2 -> same_rows c data1 data2 w n ->
  runs_start_heights avx2_dct s (spec_color c) (spec_plane c data1 w) w h1 h2 k n (exec (run_encode_avx2 P1 quality calls data1 w h1 c)) (exec (run_encode_avx2 P2 quality calls data2 w h2 c)).
Proof.
  intros P1 P2 quality calls data1 data2 w h1 h2 c k n s C O V1 V2 Hn1 Hn2 Hr si more Hsi HL Hk. rewrite !run_avx2_eq by assumption. fold s.
  pose proof (height_core P1 P2 avx2_operations avx2_pure avx2_dct s _ _ _ _ si more k n (settings_of_wf quality calls C) O avx2_op_ok avx2_is_dct
    (vi_platform _ _ _ _ _ V1) (vi_platform _ _ _ _ _ V2) (valid_image _ _ _ _ _ V1) (valid_image _ _ _ _ _ V2)) as G.
  rewrite !image_of_width, !image_of_height, !image_of_color in G.
  exact (G (proj1 (valid_fits _ _ _ _ _ V1)) (proj1 (valid_fits _ _ _ _ _ V2)) eq_refl eq_refl Hn1 Hn2 Hsi HL Hk (rows_plane c data1 data2 w n Hr)).
Qed.
Theorem C78_heights_image : forall P1 P2 quality calls im1 im2 pl1 pl2 k n, let s := settings_of quality calls in
  Forall call_wf calls -> s_optimize s = false -> valid_buffer P1 im1 pl1 -> valid_buffer P2 im2 pl2 ->
  im_color im2 = im_color im1 -> im_width im2 = im_width im1 -> n <= im_height im1 -> n <= im_height im2 ->
  same_plane_rows (im_color im1) pl1 pl2 (im_width im1) n ->
  runs_start_heights int_dct s (im_color im1) pl1 (im_width im1) (im_height im1) (im_height im2) k n (exec (run_encode_image P1 quality calls im1)) (exec (run_encode_image P2 quality calls im2)) /\
  runs_start_heights avx2_dct s (im_color im1) pl1 (im_width im1) (im_height im1) (im_height im2) k n (exec (run_encode_image_avx2 P1 quality calls im1)) (exec (run_encode_image_avx2 P2 quality calls im2)).
Proof.
  intros P1 P2 quality calls im1 im2 pl1 pl2 k n s C O V1 V2 Ec Ew Hn1 Hn2 Hr. split; intros si more Hsi HL Hk.
  - rewrite !run_encode_image_eq by assumption.
    exact (height_core P1 P2 default_operations fdct_pure int_dct s im1 im2 pl1 pl2 si more k n (settings_of_wf quality calls C) O default_op_ok fdct_is_int_dct
      (vb_platform _ _ _ V1) (vb_platform _ _ _ V2) (vb_image _ _ _ V1) (vb_image _ _ _ V2) (vb_fits _ _ _ V1) (vb_fits _ _ _ V2) Ec Ew Hn1 Hn2 Hsi HL Hk Hr).
  - rewrite !run_image_avx2_eq by assumption.
    exact (height_core P1 P2 avx2_operations avx2_pure avx2_dct s im1 im2 pl1 pl2 si more k n (settings_of_wf quality calls C) O avx2_op_ok avx2_is_dct
      (vb_platform _ _ _ V1) (vb_platform _ _ _ V2) (vb_image _ _ _ V1) (vb_image _ _ _ V2) (vb_fits _ _ _ V1) (vb_fits _ _ _ V2) Ec Ew Hn1 Hn2 Hsi HL Hk Hr).
Qed.

(** ** Every scan, not only the first one *)
Lemma scan_start F T (HF : transform_is F T) s color w h1 h2 pl1 pl2 n si k : settings_wf s -> 1 <= w -> n <= h1 -> n <= h2 -> same_plane_rows color pl1 pl2 w n ->
  In si (scan_script s color) -> same_first_mcus (frame_for s color w h1) (frame_for s color w h2) si k -> within_rows (frame_for s color w h1) si k n ->
  same_scan_start T s color pl1 w h1 si k
    (scan_data annexK_tables (frame_for s color w h1) (s_restart s) (coefficients_of T s color pl1 w h1) si)
    (scan_data annexK_tables (frame_for s color w h2) (s_restart s) (coefficients_of T s color pl2 w h2) si).
Proof.
  intros Hs Hw Hn1 Hn2 Hpl Hsi (HL1 & HL2 & HE) Hk.
  pose proof (script_band s color si Hs Hsi) as (Hss & Hse & _).
  set (f := frame_for s color w h1) in *. set (f2 := frame_for s color w h2) in *.
  pose (codes := fun pl h mcus => encode_units (comp_table f (tb_dc annexK_tables)) (comp_table f (tb_ac annexK_tables)) (si_ss si) (si_se si)
    (coefficients_of T s color pl w h) (fun _ => 0) (concat mcus)).
  assert (UE : forall mcus, incl mcus (firstn k (mcus_of f si)) -> codes pl2 h2 mcus = codes pl1 h1 mcus).
  { intros mcus HI. symmetry. apply units_same; [lia|lia|]. intros ci y x I i Hi.
    assert (I0 : In (ci, y, x) (first_units f si k)).
    { unfold first_units. apply in_concat in I as (g & Hg & I). apply in_concat. exists g. split; [now apply HI|exact I]. }
    assert (I' : In (ci, y, x) (concat (mcus_of f si))) by (rewrite (first_split f si k); apply in_or_app; now left).
    destruct (units_in s color 0 (fun _ _ _ _ => 0) (fun _ _ _ _ => 0) (fun _ _ _ _ => 0) ltac:(reflexivity) ltac:(reflexivity) f si ci y x eq_refl I') as (c & N & Hy & Hx & _). unfold coefficients_of. fold f. fold f2.
    change (fr_comps f2) with (comps_of (s_sampling s) color). change (fr_comps f) with (comps_of (s_sampling s) color). rewrite N.
    apply (heights_expected F T HF s color w h1 h2 pl1 pl2 n); try assumption. exact (Hk ci y x c I0 N). }
  assert (Hri : 0 <= s_restart s) by (pose proof (sw_restart s Hs) as R; unfold is_u16 in R; lia).
  destruct (interval_of (s_restart s) k (mcus_of f si) Hri HL1) as (x & rest & EI & HI).
  destruct (interval_of (s_restart s) k (mcus_of f2 si) Hri HL2) as (x2 & rest' & EI2 & _). rewrite <- HE in EI2.
  rewrite <- (over_firstn (s_restart s) k (mcus_of f si) (mcus_of f2 si) Hri HL1 HL2 HE) in EI2.
  unfold same_scan_start. fold f.
  set (m := over (s_restart s) k) in *. set (tail := skipn (m * Z.to_nat (s_restart s)) (firstn k (mcus_of f si))) in *.
  assert (HT : incl tail (firstn k (mcus_of f si))) by (intros a Ha; rewrite <- (firstn_skipn (m * Z.to_nat (s_restart s)) (firstn k (mcus_of f si))); apply in_or_app; right; exact Ha).
  destruct (pack_start (codes pl1 h1 tail)) as (data & left & ED & HLen & HB).
  set (gs := firstn m (intervals (s_restart s) (mcus_of f si))) in *.
  assert (WE : map (fun mcus => pack (codes pl2 h2 mcus)) gs = map (fun mcus => pack (codes pl1 h1 mcus)) gs).
  { apply map_ext_in. intros g Hg. f_equal. apply UE. intros a Ha. apply HI. apply in_concat. exists g. split; assumption. }
  assert (SD : forall pl h x rest, codes pl h tail = codes pl1 h1 tail -> map (fun mcus => pack (codes pl h mcus)) gs = map (fun mcus => pack (codes pl1 h1 mcus)) gs ->
    intervals (s_restart s) (mcus_of (frame_for s color w h) si) = gs ++ (tail ++ x) :: rest ->
    exists y more, scan_data annexK_tables (frame_for s color w h) (s_restart s) (coefficients_of T s color pl w h) si = map (fun mcus => pack (codes pl1 h1 mcus)) gs ++ (data ++ y) :: more).
  { clear x rest x2 rest' EI EI2. intros pl h x rest E1 E2 EI. change (scan_data annexK_tables (frame_for s color w h) (s_restart s) (coefficients_of T s color pl w h) si) with (map (fun mcus => pack (codes pl h mcus)) (intervals (s_restart s) (mcus_of (frame_for s color w h) si))).
    rewrite EI, map_app. rewrite E2. cbn [map].
    assert (EA : exists B, codes pl h (tail ++ x) = codes pl h tail ++ B) by (unfold codes; rewrite concat_app, encode_units_app; eexists; reflexivity).
    destruct EA as (B & ->). rewrite E1. destruct (HB B) as (r & ->). eexists. eexists. reflexivity. }
  destruct (SD pl1 h1 x rest eq_refl eq_refl EI) as (y1 & more1 & S1). destruct (SD pl2 h2 x2 rest' (UE tail HT) WE EI2) as (y2 & more2 & S2).
  exists data, left, y1, y2, more1, more2. split; [exact S1|]. split; [exact S2|]. split; [exact ED|exact HLen].
Qed.
Lemma starts_core P1 P2 op F T s im1 im2 pl1 pl2 n : settings_wf s -> s_optimize s = false -> op_ok op F -> transform_is F T ->
  plat_ok P1 -> plat_ok P2 -> image_ok im1 pl1 -> image_ok im2 pl2 ->
  im_width im1 * im_height im1 < 2 ^ (ubits P1 - 1) -> im_width im2 * im_height im2 < 2 ^ (ubits P2 - 1) ->
  im_color im2 = im_color im1 -> im_width im2 = im_width im1 -> n <= im_height im1 -> n <= im_height im2 ->
  same_plane_rows (im_color im1) pl1 pl2 (im_width im1) n ->
  exists bytes1 bytes2, exec (encode_image_internal P1 op (enc_of s) im1) = (bytes1, Ok tt) /\ exec (encode_image_internal P2 op (enc_of s) im2) = (bytes2, Ok tt) /\
    same_scan_starts T s (im_color im1) pl1 (im_width im1) (im_height im1) (im_height im2) n bytes1 bytes2.
Proof.
  intros Hs O Hop HF HP1 HP2 I1 I2 Hf1 Hf2 Ec Ew Hn1 Hn2 Hpl.
  pose proof (std_bytes_with P1 HP1 s Hs O op F T im1 pl1 Hop HF I1 Hf1) as B1. pose proof (std_bytes_with P2 HP2 s Hs O op F T im2 pl2 Hop HF I2 Hf2) as B2. unfold emits in B1, B2.
  eexists. eexists. split; [exact B1|]. split; [exact B2|]. clear B1 B2.
  assert (Hw : 1 <= im_width im1) by apply I1.
  assert (E2 : spec_cf s T im2 pl2 = coefficients_of T s (im_color im1) pl2 (im_width im1) (im_height im2)) by (unfold spec_cf, coefficients_of; rewrite Ec, Ew; reflexivity).
  assert (E1 : spec_cf s T im1 pl1 = coefficients_of T s (im_color im1) pl1 (im_width im1) (im_height im1)) by reflexivity.
  rewrite ?E1, ?E2, ?Ec, ?Ew. clear E1 E2 Ec Ew I1 I2 Hf1 Hf2.
  set (color := im_color im1) in *. set (w := im_width im1) in *. set (h1 := im_height im1) in *. set (h2 := im_height im2) in *. clearbody color w h1 h2.
  set (f := frame_for s color w h1) in *.
  pose (before := map (fun '(nr, data) => Segment (224 + nr) data) (apps_for s color)).
  pose (after := [dqt s 0; dqt s 1; dht 0 0 (tb_dc annexK_tables 0); dht 1 0 (tb_ac annexK_tables 0)] ++
    (if (3 <=? length (fr_comps f))%nat then [dht 0 1 (tb_dc annexK_tables 1); dht 1 1 (tb_ac annexK_tables 1)] else []) ++ dri (s_restart s)).
  pose (fh := u16_bytes w ++ [Z.of_nat (length (fr_comps f))] ++ flat_map (fun c => [co_id c; 16 * co_h c + co_v c; co_tq c]) (fr_comps f)).
  pose (ds := fun pl h si => scan_data annexK_tables (frame_for s color w h) (s_restart s) (coefficients_of T s color pl w h) si).
  exists before, (if fr_progressive f then 194 else 192), fh, after, (scan_header f), (ds pl1 h1), (ds pl2 h2).
  assert (FP : forall pl h, file_parts annexK_tables s (frame_for s color w h) color (coefficients_of T s color pl w h) =
      before ++ [Segment (if fr_progressive f then 194 else 192) (8 :: u16_bytes h ++ fh)] ++ after ++ map (fun si => Scan (scan_header f si) (ds pl h si)) (scan_script s color)).
  { intros pl h. unfold file_parts, after. rewrite <- !app_assoc. reflexivity. }
  split; [|split; [destruct (fr_progressive f); auto|split; [split; [exact (f_equal render_file (FP pl1 h1))|exact (f_equal render_file (FP pl2 h2))]|]]].
  - intros p Hp. unfold before, after in Hp. rewrite !in_app_iff in Hp. destruct Hp as [Hp|[Hp|[Hp|Hp]]].
    + apply in_map_iff in Hp as ([nr d] & <- & _). eauto.
    + cbn [In] in Hp. unfold dqt, dht in Hp. repeat (destruct Hp as [<-|Hp]; [eauto|]). destruct Hp.
    + destruct (3 <=? _)%nat; [|destruct Hp]. cbn [In] in Hp. unfold dht in Hp. repeat (destruct Hp as [<-|Hp]; [eauto|]). destruct Hp.
    + unfold dri in Hp. destruct (s_restart s =? 0); [destruct Hp|]. destruct Hp as [<-|[]]. eauto.
  - intros si k Hsi HM HR. exact (scan_start F T HF s color w h1 h2 pl1 pl2 n si k Hs Hw Hn1 Hn2 Hpl Hsi HM HR).
Qed.
Definition runs_scan_starts (T : transform) (s : settings) (color : jcolor) (pl : planes) (w h1 h2 n : Z) (run1 run2 : list Z * outcome unit) : Prop :=
  exists bytes1 bytes2, run1 = (bytes1, Ok tt) /\ run2 = (bytes2, Ok tt) /\ same_scan_starts T s color pl w h1 h2 n bytes1 bytes2.
Theorem C78_every_scan : forall P1 P2 quality calls data1 data2 w h1 h2 c n, let s := settings_of quality calls in
  Forall call_wf calls -> s_optimize s = false -> valid_input P1 data1 w h1 c -> valid_input P2 data2 w h2 c ->
  n <= h1 -> n <= h2 -> same_rows c data1 data2 w n ->
  runs_scan_starts int_dct s (spec_color c) (spec_plane c data1 w) w h1 h2 n (exec (run_encode P1 quality calls data1 w h1 c)) (exec (run_encode P2 quality calls data2 w h2 c)) /\
  runs_scan_starts avx2_dct s (spec_color c) (spec_plane c data1 w) w h1 h2 n (exec (run_encode_avx2 P1 quality calls data1 w h1 c)) (exec (run_encode_avx2 P2 quality calls data2 w h2 c)).
Proof.
  intros P1 P2 quality calls data1 data2 w h1 h2 c n s C O V1 V2 Hn1 Hn2 Hr. split.
  - rewrite !run_encode_eq by assumption. fold s.
    pose proof (starts_core P1 P2 default_operations fdct_pure int_dct s _ _ _ _ n (settings_of_wf quality calls C) O default_op_ok fdct_is_int_dct
      (vi_platform _ _ _ _ _ V1) (vi_platform _ _ _ _ _ V2) (valid_image _ _ _ _ _ V1) (valid_image _ _ _ _ _ V2)) as G.
    rewrite !image_of_width, !image_of_height, !image_of_color in G.
    exact (G (proj1 (valid_fits _ _ _ _ _ V1)) (proj1 (valid_fits _ _ _ _ _ V2)) eq_refl eq_refl Hn1 Hn2 (rows_plane c data1 data2 w n Hr)).
  - rewrite !run_avx2_eq by assumption. fold s.
    pose proof (starts_core P1 P2 avx2_operations avx2_pure avx2_dct s _ _ _ _ n (settings_of_wf quality calls C) O avx2_op_ok avx2_is_dct
      (vi_platform _ _ _ _ _ V1) (vi_platform _ _ _ _ _ V2) (valid_image _ _ _ _ _ V1) (valid_image _ _ _ _ _ V2)) as G.
    rewrite !image_of_width, !image_of_height, !image_of_color in G.
    exact (G (proj1 (valid_fits _ _ _ _ _ V1)) (proj1 (valid_fits _ _ _ _ _ V2)) eq_refl eq_refl Hn1 Hn2 (rows_plane c data1 data2 w n Hr)).
Qed.
Theorem C78_every_scan_image : forall P1 P2 quality calls im1 im2 pl1 pl2 n, let s := settings_of quality calls in
  Forall call_wf calls -> s_optimize s = false -> valid_buffer P1 im1 pl1 -> valid_buffer P2 im2 pl2 ->
  im_color im2 = im_color im1 -> im_width im2 = im_width im1 -> n <= im_height im1 -> n <= im_height im2 ->
  same_plane_rows (im_color im1) pl1 pl2 (im_width im1) n ->
  runs_scan_starts int_dct s (im_color im1) pl1 (im_width im1) (im_height im1) (im_height im2) n (exec (run_encode_image P1 quality calls im1)) (exec (run_encode_image P2 quality calls im2)) /\
  runs_scan_starts avx2_dct s (im_color im1) pl1 (im_width im1) (im_height im1) (im_height im2) n (exec (run_encode_image_avx2 P1 quality calls im1)) (exec (run_encode_image_avx2 P2 quality calls im2)).
Proof.
  intros P1 P2 quality calls im1 im2 pl1 pl2 n s C O V1 V2 Ec Ew Hn1 Hn2 Hr. split.
  - rewrite !run_encode_image_eq by assumption.
    exact (starts_core P1 P2 default_operations fdct_pure int_dct s im1 im2 pl1 pl2 n (settings_of_wf quality calls C) O default_op_ok fdct_is_int_dct
      (vb_platform _ _ _ V1) (vb_platform _ _ _ V2) (vb_image _ _ _ V1) (vb_image _ _ _ V2) (vb_fits _ _ _ V1) (vb_fits _ _ _ V2) Ec Ew Hn1 Hn2 Hr).
  - rewrite !run_image_avx2_eq by assumption.
    exact (starts_core P1 P2 avx2_operations avx2_pure avx2_dct s im1 im2 pl1 pl2 n (settings_of_wf quality calls C) O avx2_op_ok avx2_is_dct
      (vb_platform _ _ _ V1) (vb_platform _ _ _ V2) (vb_image _ _ _ V1) (vb_image _ _ _ V2) (vb_fits _ _ _ V1) (vb_fits _ _ _ V2) Ec Ew Hn1 Hn2 Hr).
Qed.

(** A case: 9 x 17 and 9 x 20 pixels with 2 x 2 subsampling; the first row of MCUs (16 rows) is settled. *)
Definition taller : list Z := firstn 432 light_bytes ++ repeat 77 108.
Example C78_case : exists si, si_comps si = [0; 1; 2]%nat /\ same_rows Rgb light_bytes taller 9 16 /\ mcu_rows (frame_for (settings_of 60 [CSampling F_2_2]) JYcbcr 9 17) si = 16 /\
  exists bytes1 bytes2, exec (run_encode debug64 60 [CSampling F_2_2] light_bytes 9 17 Rgb) = (bytes1, Ok tt) /\
    exec (run_encode release32 60 [CSampling F_2_2] taller 9 20 Rgb) = (bytes2, Ok tt) /\
    same_start_heights int_dct (settings_of 60 [CSampling F_2_2]) JYcbcr (spec_plane Rgb light_bytes 9) 9 17 20 si 1 bytes1 bytes2.
Proof.
  assert (G : same_rows Rgb light_bytes taller 9 16).
  { intros y x i Hy Hx Hi. cbn [spec_bpp] in *. unfold pixel_byte, taller. rewrite app_nth1; [|change (length (firstn 432 light_bytes)) with 432%nat; lia].
    assert (L : (Z.to_nat ((y * 9 + x) * 3 + i) < 432)%nat) by lia. revert L. generalize (Z.to_nat ((y * 9 + x) * 3 + i)). intros n L.
    rewrite <- (firstn_skipn 432 light_bytes) at 1. rewrite app_nth1; [reflexivity|]. change (length (firstn 432 light_bytes)) with 432%nat. exact L. }
  exists {| si_comps := [0; 1; 2]%nat; si_ss := 0; si_se := 63 |}. split; [reflexivity|]. split; [exact G|].
  assert (R : mcu_rows (frame_for (settings_of 60 [CSampling F_2_2]) JYcbcr 9 17) {| si_comps := [0; 1; 2]%nat; si_ss := 0; si_se := 63 |} = 16) by (vm_compute; reflexivity).
  split; [exact R|].
  pose proof (C78_whole_rows (settings_of 60 [CSampling F_2_2]) JYcbcr 9 17 20 {| si_comps := [0; 1; 2]%nat; si_ss := 0; si_se := 63 |} 1 1%nat ltac:(lia)) as W. cbv zeta in W. rewrite R in W.
  destruct (W ltac:(lia) ltac:(lia) ltac:(lia) ltac:(lia) ltac:(vm_compute; discriminate)) as (W1 & W2).
  apply (C78_heights debug64 release32 60 [CSampling F_2_2] light_bytes taller 9 17 20 Rgb 1 16) with (more := []).
  - repeat constructor.
  - reflexivity.
  - constructor; try (vm_compute; split; discriminate); [now right| |vm_compute; discriminate]. apply bytes_by_check. vm_compute. reflexivity.
  - constructor; try (vm_compute; split; discriminate); [now left| |vm_compute; discriminate]. apply bytes_by_check. vm_compute. reflexivity.
  - lia.
  - lia.
  - exact G.
  - reflexivity.
  - exact W1.
  - exact W2.
Qed.
