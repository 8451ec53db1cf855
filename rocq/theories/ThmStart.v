(** C77: the first rows of the image settle the first part of the file. *)
From Verif Require Import ThmApi ThmGrey.
From Verif Require Import MAvx2 T81 SFile SApi SEncode SHuff SMeta SLocal SPad SSize SStart PBits PBytesI PScan PQuant PApi PExec PEncode PBytes PBytesF PRound PGeom PAll PPad PAvxDct ThmRound ThmAvx2 ThmAll ThmLocal ThmPad ThmSizeS ThmStrip ThmBright ThmUnbroken.
From Coq Require Import ZArith List Bool Lia ZifyBool ZifyNat.
Import ListNotations.
Open Scope Z_scope.

Lemma bits_of_value l : length l = 8%nat -> bits_of 8 (value_of l) = l.
Proof.
  intros H. do 8 (destruct l as [|? l]; [discriminate|]). destruct l; [|discriminate].
  repeat match goal with b : bool |- _ => destruct b end; reflexivity.
Qed.
Lemma whole_bytes : forall n A, (length A <= n)%nat -> exists d left, A = bits_of_bytes d ++ left /\ (length left < 8)%nat.
Proof.
  induction n as [|n IH]; intros A HA.
  - destruct A; [|cbn in HA; lia]. exists [], []. split; [reflexivity|cbn; lia].
  - destruct (le_lt_dec 8 (length A)) as [L|L]; [|exists [], A; split; [reflexivity|exact L]].
    destruct (IH (skipn 8 A) ltac:(rewrite skipn_length; lia)) as (d & left & E & Hl).
    exists (value_of (firstn 8 A) :: d), left. split; [|exact Hl]. change (bits_of_bytes (value_of (firstn 8 A) :: d)) with (bits_of 8 (value_of (firstn 8 A)) ++ bits_of_bytes d).
    rewrite bits_of_value by (rewrite firstn_length; lia). rewrite <- app_assoc, <- E. symmetry. apply firstn_skipn.
Qed.
Lemma value_of_byte d : value_of (bits_of 8 d) = d mod 256.
Proof. rewrite value_of_bits_of. reflexivity. Qed.
Lemma fill_bytes d L : fill (bits_of_bytes d ++ L) = bits_of_bytes d ++ fill L.
Proof. unfold fill. rewrite <- app_assoc. do 3 f_equal. rewrite app_length, bits_of_bytes_length. lia. Qed.
Lemma pack_bytes d L : pack (bits_of_bytes d ++ L) = map (fun b => b mod 256) d ++ pack L.
Proof.
  unfold pack. rewrite fill_bytes. induction d as [|b d IH]; [reflexivity|].
  change (bits_of_bytes (b :: d)) with (bits_of 8 b ++ bits_of_bytes d). rewrite <- !app_assoc, group_full by (try lia; apply bits_of_length).
  cbn [map app]. rewrite <- IH, value_of_byte. reflexivity.
Qed.
Lemma bits_mod d : bits_of_bytes (map (fun b => b mod 256) d) = bits_of_bytes d.
Proof.
  induction d as [|b d IH]; [reflexivity|]. cbn [map]. unfold bits_of_bytes in *. cbn [flat_map]. rewrite IH. f_equal.
  rewrite <- value_of_byte. apply bits_of_value, bits_of_length.
Qed.
(** A code sequence that goes on: its whole bytes are settled. *)
Lemma pack_start A : exists data left, bits_of_bytes data ++ left = A /\ (length left < 8)%nat /\ forall B, exists rest, pack (A ++ B) = data ++ rest.
Proof.
  destruct (whole_bytes (length A) A (le_n _)) as (d & left & -> & Hl). exists (map (fun b => b mod 256) d), left. rewrite bits_mod.
  split; [reflexivity|]. split; [exact Hl|]. intros B. rewrite <- app_assoc, pack_bytes. eexists. reflexivity.
Qed.
Lemma stuffed_app a b : stuffed (a ++ b) = stuffed a ++ stuffed b.
Proof. unfold stuffed. apply flat_map_app. Qed.
Lemma first_split f si k : concat (mcus_of f si) = first_units f si k ++ concat (skipn k (mcus_of f si)).
Proof. unfold first_units. rewrite <- concat_app, firstn_skipn. reflexivity. Qed.
Lemma units_same dc ac ss se (cf cf' : coefficients) : 0 <= ss -> se < 64 -> forall us pred,
  (forall ci y x, In (ci, y, x) us -> forall k, 0 <= k < 64 -> cf ci y x k = cf' ci y x k) ->
  encode_units dc ac ss se cf pred us = encode_units dc ac ss se cf' pred us.
Proof.
  intros Hss Hse us pred H. rewrite <- (map_id us) at 1. apply units_ext; try assumption. intros ci y x I. exists y. split; [reflexivity|]. exact (H ci y x I).
Qed.

Lemma rows_expected F T (HF : transform_is F T) s color w h pl1 pl2 n ci c y x i : 1 <= w -> 1 <= h -> same_plane_rows color pl1 pl2 w n ->
  nth_error (comps_of (s_sampling s) color) ci = Some c -> 0 <= y -> 0 <= x -> Z.min h (top (frame_for s color w h) c (y + 1)) <= n -> 0 <= i < 64 ->
  expected T s color pl1 w h ci c y x i = expected T s color pl2 w h ci c y x i.
Proof.
  intros Hw Hh Hc N Hy Hx Hn Hi. pose proof (comps_count _ _ _ _ N) as Hm. destruct (steps_exact s color w h c (nth_error_In _ _ N)) as (_ & _ & Px & Py & _).
  unfold expected. set (f := frame_for s color w h) in *. change (hmax f / co_h c) with (step_x f c). change (vmax f / co_v c) with (step_y f c). unfold top in Hn.
  pose proof (zigzag_pos_range i Hi) as Hz. destruct (zigzag_pos i) as [v u]. f_equal.
  apply (transform_ext F T _ _ v u HF); [apply Hz|apply Hz|]. intros y' x' Hy' Hx'. unfold block_sample. f_equal.
  set (sx := step_x f c) in *. set (sy := step_y f c) in *. clearbody sx sy.
  assert (Hr : 0 <= (8 * y + Z.of_nat y') * sy < 8 * (y + 1) * sy).
  { split; [apply Z.mul_nonneg_nonneg; lia|]. apply Z.mul_lt_mono_pos_r; lia. }
  assert (Hs : 0 <= (8 * x + Z.of_nat x') * sx) by (apply Z.mul_nonneg_nonneg; lia).
  apply Hc; [exact Hm| |]; lia.
Qed.

Lemma coded_closed : forall W m x rest, exists r, coded_data m (W ++ x :: rest) = closed_intervals m W ++ stuffed x ++ r.
Proof.
  induction W as [|d W IH]; intros m x rest.
  - destruct rest as [|y rest]; [exists []; cbn [app coded_data closed_intervals]; rewrite app_nil_r; reflexivity|]. eexists. cbn [app coded_data closed_intervals]. reflexivity.
  - destruct (IH (m + 1) x rest) as (r & E). exists r. transitivity (stuffed d ++ [255; 208 + m mod 8] ++ coded_data (m + 1) (W ++ x :: rest)).
    + cbn [app coded_data]. destruct (W ++ x :: rest) as [|y l] eqn:N; [destruct W; discriminate N|]. reflexivity.
    + rewrite E. cbn [closed_intervals]. rewrite <- !app_assoc. reflexivity.
Qed.
Lemma group_incl_concat {A} k : (0 < k)%nat -> forall fuel (l : list A), (length l <= fuel)%nat -> concat (group fuel k l) = l.
Proof.
  intros Hk. induction fuel as [|fuel IH]; intros l Hl; [destruct l; [reflexivity|cbn in Hl; lia]|].
  cbn [group]. destruct l as [|a l]; [reflexivity|]. cbn [concat]. rewrite IH; [apply firstn_skipn|]. rewrite skipn_length. cbn [length] in *. lia.
Qed.
(** The interval of the [k]-th MCU: those before it are over, and of its MCUs the first ones are among the first [k]. *)
Lemma interval_of {A} ri k (l : list A) : 0 <= ri -> (1 <= k <= length l)%nat ->
  exists x rest, intervals ri l = firstn (over ri k) (intervals ri l) ++ (skipn (over ri k * Z.to_nat ri) (firstn k l) ++ x) :: rest /\
    incl (concat (firstn (over ri k) (intervals ri l))) (firstn k l).
Proof.
  intros Hri Hk. unfold intervals, over. destruct (Z.eqb_spec ri 0) as [->|N].
  - exists (skipn k l), []. cbn [Nat.mul skipn firstn app]. rewrite firstn_skipn. split; [reflexivity|intros a H; destruct H].
  - set (r := Z.to_nat ri). assert (Pr : (0 < r)%nat) by lia. clearbody r. clear N Hri ri. set (n := ((k - 1) / r)%nat).
    pose proof (Nat.div_mod (k - 1) r ltac:(lia)) as D. fold n in D. pose proof (Nat.mod_upper_bound (k - 1) r ltac:(lia)) as U. clearbody n. rewrite (Nat.mul_comm r n) in D.
    assert (L : (n * r < k)%nat) by lia. assert (L2 : (k <= n * r + r)%nat) by lia. clear D U.
    assert (E : group (length l) r l = group (length (firstn (n * r) l)) r (firstn (n * r) l) ++ group (length (skipn (n * r) l)) r (skipn (n * r) l)).
    { rewrite <- (firstn_skipn (n * r) l) at 1 2. apply (group_app r n Pr). rewrite firstn_length. lia. }
    assert (LG : length (group (length (firstn (n * r) l)) r (firstn (n * r) l)) = n).
    { assert (G : forall n (a : list A), length a = (n * r)%nat -> length (group (length a) r a) = n).
      { clear - Pr. induction n as [|n IH]; intros a H; [destruct a; [reflexivity|discriminate]|].
        rewrite <- (firstn_skipn r a). rewrite group_app_full by (try exact Pr; rewrite firstn_length; lia). cbn [length]. f_equal. apply IH. rewrite skipn_length. lia. }
      apply G. rewrite firstn_length. lia. }
    exists (skipn (k - n * r) (firstn r (skipn (n * r) l))), (group (length (skipn r (skipn (n * r) l))) r (skipn r (skipn (n * r) l))).
    rewrite !E. assert (C : firstn n (group (length (firstn (n * r) l)) r (firstn (n * r) l) ++ group (length (skipn (n * r) l)) r (skipn (n * r) l)) = group (length (firstn (n * r) l)) r (firstn (n * r) l)).
    { rewrite firstn_app, LG, Nat.sub_diag, firstn_O, app_nil_r. apply firstn_all2. rewrite LG. lia. }
    rewrite !C. clear C. split; [|rewrite (group_incl_concat r Pr) by lia; intros a H; rewrite <- (firstn_skipn (n * r) (firstn k l)); apply in_or_app; left; rewrite firstn_firstn, Nat.min_l by lia; exact H].
    f_equal. clear E LG.
    rewrite skipn_firstn_comm. replace (firstn (k - n * r) (skipn (n * r) l)) with (firstn (k - n * r) (firstn r (skipn (n * r) l))) by (rewrite firstn_firstn; f_equal; lia).
    rewrite firstn_skipn. set (t := skipn (n * r) l). assert (Ht : t <> []) by (unfold t; intros E; apply (f_equal (@length A)) in E; rewrite skipn_length in E; cbn in E; lia).
    clearbody t. destruct t as [|a t]; [contradiction|]. cbn [length group]. f_equal. apply group_length_fuel; rewrite ?skipn_length; cbn [length]; lia.
Qed.
Lemma start_core P1 P2 op F T s im1 im2 pl1 pl2 si more k n : settings_wf s -> s_optimize s = false -> op_ok op F -> transform_is F T ->
  plat_ok P1 -> plat_ok P2 -> image_ok im1 pl1 -> image_ok im2 pl2 ->
  im_width im1 * im_height im1 < 2 ^ (ubits P1 - 1) -> im_width im2 * im_height im2 < 2 ^ (ubits P2 - 1) ->
  im_color im2 = im_color im1 -> im_width im2 = im_width im1 -> im_height im2 = im_height im1 ->
  scan_script s (im_color im1) = si :: more -> (1 <= k <= length (mcus_of (frame_for s (im_color im1) (im_width im1) (im_height im1)) si))%nat -> made_of_rows (frame_for s (im_color im1) (im_width im1) (im_height im1)) si k n ->
  same_plane_rows (im_color im1) pl1 pl2 (im_width im1) n ->
  exists bytes1 bytes2, exec (encode_image_internal P1 op (enc_of s) im1) = (bytes1, Ok tt) /\ exec (encode_image_internal P2 op (enc_of s) im2) = (bytes2, Ok tt) /\
    same_start T s (im_color im1) pl1 (im_width im1) (im_height im1) si k bytes1 bytes2.
Proof.
  intros Hs O Hop HF HP1 HP2 I1 I2 Hf1 Hf2 Ec Ew Eh Hsi HL Hk Hpl.
  pose proof (std_bytes_with P1 HP1 s Hs O op F T im1 pl1 Hop HF I1 Hf1) as B1. pose proof (std_bytes_with P2 HP2 s Hs O op F T im2 pl2 Hop HF I2 Hf2) as B2. unfold emits in B1, B2.
  eexists. eexists. split; [exact B1|]. split; [exact B2|]. clear B1 B2.
  assert (Hw : 1 <= im_width im1) by apply I1. assert (Hh : 1 <= im_height im1) by apply I1.
  pose proof (script_band s (im_color im1) si Hs ltac:(rewrite Hsi; now left)) as (Hss & Hse & _).
  assert (E2 : spec_cf s T im2 pl2 = coefficients_of T s (im_color im1) pl2 (im_width im1) (im_height im1)) by (unfold spec_cf, coefficients_of; rewrite Ec, Ew, Eh; reflexivity).
  assert (E1 : spec_cf s T im1 pl1 = coefficients_of T s (im_color im1) pl1 (im_width im1) (im_height im1)) by reflexivity.
  rewrite ?E1, ?E2, ?Ec, ?Ew, ?Eh. clear E1 E2 Ec Ew Eh I1 I2 Hf1 Hf2.
  set (color := im_color im1) in *. set (w := im_width im1) in *. set (h := im_height im1) in *. clearbody color w h.
  set (f := frame_for s color w h) in *.
  pose (codes := fun pl mcus => encode_units (comp_table f (tb_dc annexK_tables)) (comp_table f (tb_ac annexK_tables)) (si_ss si) (si_se si)
    (coefficients_of T s color pl w h) (fun _ => 0) (concat mcus)).
  assert (UE : forall mcus, incl mcus (firstn k (mcus_of f si)) -> codes pl2 mcus = codes pl1 mcus).
  { intros mcus HI. symmetry. apply units_same; [lia|lia|]. intros ci y x I i Hi.
    assert (I0 : In (ci, y, x) (first_units f si k)).
    { unfold first_units. apply in_concat in I as (g & Hg & I). apply in_concat. exists g. split; [now apply HI|exact I]. }
    assert (I' : In (ci, y, x) (concat (mcus_of f si))) by (rewrite (first_split f si k); apply in_or_app; now left).
    destruct (units_in s color 0 (fun _ _ _ _ => 0) (fun _ _ _ _ => 0) (fun _ _ _ _ => 0) ltac:(reflexivity) ltac:(reflexivity) f si ci y x eq_refl I') as (c & N & Hy & Hx & _). unfold coefficients_of. fold f.
    change (fr_comps f) with (comps_of (s_sampling s) color). rewrite N.
    apply (rows_expected F T HF s color w h pl1 pl2 n); try assumption. exact (Hk ci y x c I0 N). }
  destruct (interval_of (s_restart s) k (mcus_of f si) ltac:(pose proof (sw_restart s Hs) as R; unfold is_u16 in R; lia) HL) as (x & rest & EI & HI).
  set (m := over (s_restart s) k) in *. set (tail := skipn (m * Z.to_nat (s_restart s)) (firstn k (mcus_of f si))) in *.
  assert (HT : incl tail (firstn k (mcus_of f si))) by (intros a Ha; rewrite <- (firstn_skipn (m * Z.to_nat (s_restart s)) (firstn k (mcus_of f si))); apply in_or_app; right; exact Ha).
  destruct (pack_start (codes pl1 tail)) as (data & left & ED & HLen & HB).
  assert (WE : map (fun mcus => pack (codes pl2 mcus)) (firstn m (intervals (s_restart s) (mcus_of f si))) = map (fun mcus => pack (codes pl1 mcus)) (firstn m (intervals (s_restart s) (mcus_of f si)))).
  { apply map_ext_in. intros g Hg. f_equal. apply UE. intros a Ha. apply HI. apply in_concat. exists g. split; assumption. }
  set (whole := map (fun mcus => pack (codes pl1 mcus)) (firstn m (intervals (s_restart s) (mcus_of f si)))) in *.
  assert (SD : forall pl, codes pl tail = codes pl1 tail -> map (fun mcus => pack (codes pl mcus)) (firstn m (intervals (s_restart s) (mcus_of f si))) = whole ->
    exists rest, coded_data 0 (scan_data annexK_tables f (s_restart s) (coefficients_of T s color pl w h) si) = (closed_intervals 0 whole ++ stuffed data) ++ rest).
  { intros pl E1 E2. change (scan_data annexK_tables f (s_restart s) (coefficients_of T s color pl w h) si) with (map (fun mcus => pack (codes pl mcus)) (intervals (s_restart s) (mcus_of f si))).
    rewrite EI, map_app. rewrite E2. cbn [map].
    assert (EA : exists B, codes pl (tail ++ x) = codes pl tail ++ B) by (unfold codes; rewrite concat_app, encode_units_app; eexists; reflexivity).
    destruct EA as (B & ->). rewrite E1. destruct (HB B) as (r & ->).
    destruct (coded_closed whole 0 (data ++ r) (map (fun mcus => pack (codes pl mcus)) rest)) as (r' & ->). exists (stuffed r ++ r'). rewrite stuffed_app, <- !app_assoc. reflexivity. }
  destruct (SD pl1 eq_refl eq_refl) as (r1 & S1). destruct (SD pl2 (UE tail HT) WE) as (r2 & S2). clear SD HB UE WE EI HI HT.
  unfold same_start. fold f.
  exists (map (fun '(nr, data) => Segment (224 + nr) data) (apps_for s color) ++ [sof f; dqt s 0; dqt s 1; dht 0 0 (tb_dc annexK_tables 0); dht 1 0 (tb_ac annexK_tables 0)] ++
    (if (3 <=? length (fr_comps f))%nat then [dht 0 1 (tb_dc annexK_tables 1); dht 1 1 (tb_ac annexK_tables 1)] else []) ++ dri (s_restart s)), (scan_header f si), data, left.
  assert (G : forall pl r, coded_data 0 (scan_data annexK_tables f (s_restart s) (coefficients_of T s color pl w h) si) = (closed_intervals 0 whole ++ stuffed data) ++ r ->
    exists rest, render_file (file_parts annexK_tables s f color (coefficients_of T s color pl w h)) =
      ([255; 216] ++ flat_map render (map (fun '(nr, data) => Segment (224 + nr) data) (apps_for s color) ++ [sof f; dqt s 0; dqt s 1; dht 0 0 (tb_dc annexK_tables 0); dht 1 0 (tb_ac annexK_tables 0)] ++
    (if (3 <=? length (fr_comps f))%nat then [dht 0 1 (tb_dc annexK_tables 1); dht 1 1 (tb_ac annexK_tables 1)] else []) ++ dri (s_restart s)) ++
      [255; 218] ++ length_field (scan_header f si) ++ scan_header f si ++ closed_intervals 0 whole ++ stuffed data) ++ rest).
  { intros pl r E. unfold render_file, file_parts. rewrite Hsi. cbn [map]. 
    match goal with |- context [Scan (scan_header f si) ?d :: ?l] => change (Scan (scan_header f si) d :: l) with ([Scan (scan_header f si) d] ++ l) end.
    exists (r ++ flat_map render (map (fun si0 => Scan (scan_header f si0) (scan_data annexK_tables f (s_restart s) (coefficients_of T s color pl w h) si0)) more) ++ [255; 217]).
    rewrite !flat_map_app. cbn [flat_map render]. rewrite E. rewrite ?app_nil_r, <- ?app_assoc. cbn [app]. rewrite <- ?app_assoc. cbn [app]. rewrite <- ?app_assoc. reflexivity. }
  destruct (G pl1 r1 S1) as (rest1 & G1). destruct (G pl2 r2 S2) as (rest2 & G2). exists rest1, rest2.
  split; [|split; [split; [exact G1|exact G2]|split; [exact ED|exact HLen]]].
  intros p Hp. rewrite !in_app_iff in Hp. destruct Hp as [Hp|[Hp|[Hp|Hp]]].
  - apply in_map_iff in Hp as ([nr d] & <- & _). eauto.
  - cbn [In] in Hp. unfold sof, dqt, dht in Hp. repeat (destruct Hp as [<-|Hp]; [eauto|]). destruct Hp.
  - destruct (3 <=? _)%nat; [|destruct Hp]. cbn [In] in Hp. unfold dht in Hp. repeat (destruct Hp as [<-|Hp]; [eauto|]). destruct Hp.
  - unfold dri in Hp. destruct (s_restart s =? 0); [destruct Hp|]. destruct Hp as [<-|[]]. eauto.
Qed.
Lemma rows_plane c data1 data2 w n : same_rows c data1 data2 w n -> same_plane_rows (spec_color c) (spec_plane c data1 w) (spec_plane c data2 w) w n.
Proof. intros H ci y x Hc Hy Hx. apply plane_ext; [exact Hc|]. intros k Hk. now apply H. Qed.

(** ** C77
    Two images with the same first [n] rows, standard Huffman tables: both calls succeed, and the files
    have all the bytes up to the end of the first [k] MCUs in common. *)
Definition runs_start (T : transform) (s : settings) (color : jcolor) (pl : planes) (w h : Z) (k : nat) (n : Z) (run1 run2 : list Z * outcome unit) : Prop :=
  forall si more, scan_script s color = si :: more -> (1 <= k <= length (mcus_of (frame_for s color w h) si))%nat -> made_of_rows (frame_for s color w h) si k n ->
  exists bytes1 bytes2, run1 = (bytes1, Ok tt) /\ run2 = (bytes2, Ok tt) /\ same_start T s color pl w h si k bytes1 bytes2.
Theorem C77_start : forall P1 P2 quality calls data1 data2 w h c k n, let s := settings_of quality calls in
  Forall call_wf calls -> s_optimize s = false -> valid_input P1 data1 w h c -> valid_input P2 data2 w h c ->
  same_rows c data1 data2 w n ->
  runs_start int_dct s (spec_color c) (spec_plane c data1 w) w h k n (exec (run_encode P1 quality calls data1 w h c)) (exec (run_encode P2 quality calls data2 w h c)).
Proof.
  intros P1 P2 quality calls data1 data2 w h c k n s C O V1 V2 Hr si more Hsi HL Hk. rewrite !run_encode_eq by assumption. fold s.
  pose proof (start_core P1 P2 default_operations fdct_pure int_dct s _ _ _ _ si more k n (settings_of_wf quality calls C) O default_op_ok fdct_is_int_dct
    (vi_platform _ _ _ _ _ V1) (vi_platform _ _ _ _ _ V2) (valid_image _ _ _ _ _ V1) (valid_image _ _ _ _ _ V2)) as G.
  rewrite !image_of_width, !image_of_height, !image_of_color in G.
  exact (G (proj1 (valid_fits _ _ _ _ _ V1)) (proj1 (valid_fits _ _ _ _ _ V2)) eq_refl eq_refl eq_refl Hsi HL Hk (rows_plane c data1 data2 w n Hr)).
Qed.
Theorem C77_start_simd : forall P1 P2 quality calls data1 data2 w h c k n, let s := settings_of quality calls in
  Forall call_wf calls -> s_optimize s = false -> valid_input P1 data1 w h c -> valid_input P2 data2 w h c ->
  same_rows c data1 data2 w n ->
  runs_start avx2_dct s (spec_color c) (spec_plane c data1 w) w h k n (exec (run_encode_avx2 P1 quality calls data1 w h c)) (exec (run_encode_avx2 P2 quality calls data2 w h c)).
Proof.
  intros P1 P2 quality calls data1 data2 w h c k n s C O V1 V2 Hr si more Hsi HL Hk. rewrite !run_avx2_eq by assumption. fold s.
  pose proof (start_core P1 P2 avx2_operations avx2_pure avx2_dct s _ _ _ _ si more k n (settings_of_wf quality calls C) O avx2_op_ok avx2_is_dct
    (vi_platform _ _ _ _ _ V1) (vi_platform _ _ _ _ _ V2) (valid_image _ _ _ _ _ V1) (valid_image _ _ _ _ _ V2)) as G.
  rewrite !image_of_width, !image_of_height, !image_of_color in G.
  exact (G (proj1 (valid_fits _ _ _ _ _ V1)) (proj1 (valid_fits _ _ _ _ _ V2)) eq_refl eq_refl eq_refl Hsi HL Hk (rows_plane c data1 data2 w n Hr)).
Qed.
Theorem C77_start_image : forall P1 P2 quality calls im1 im2 pl1 pl2 k n, let s := settings_of quality calls in
  Forall call_wf calls -> s_optimize s = false -> valid_buffer P1 im1 pl1 -> valid_buffer P2 im2 pl2 ->
  im_color im2 = im_color im1 -> im_width im2 = im_width im1 -> im_height im2 = im_height im1 ->
  same_plane_rows (im_color im1) pl1 pl2 (im_width im1) n ->
  runs_start int_dct s (im_color im1) pl1 (im_width im1) (im_height im1) k n (exec (run_encode_image P1 quality calls im1)) (exec (run_encode_image P2 quality calls im2)) /\
  runs_start avx2_dct s (im_color im1) pl1 (im_width im1) (im_height im1) k n (exec (run_encode_image_avx2 P1 quality calls im1)) (exec (run_encode_image_avx2 P2 quality calls im2)).
Proof.
  intros P1 P2 quality calls im1 im2 pl1 pl2 k n s C O V1 V2 Ec Ew Eh Hr. split; intros si more Hsi HL Hk.
  - rewrite !run_encode_image_eq by assumption.
    exact (start_core P1 P2 default_operations fdct_pure int_dct s im1 im2 pl1 pl2 si more k n (settings_of_wf quality calls C) O default_op_ok fdct_is_int_dct
      (vb_platform _ _ _ V1) (vb_platform _ _ _ V2) (vb_image _ _ _ V1) (vb_image _ _ _ V2) (vb_fits _ _ _ V1) (vb_fits _ _ _ V2) Ec Ew Eh Hsi HL Hk Hr).
  - rewrite !run_image_avx2_eq by assumption.
    exact (start_core P1 P2 avx2_operations avx2_pure avx2_dct s im1 im2 pl1 pl2 si more k n (settings_of_wf quality calls C) O avx2_op_ok avx2_is_dct
      (vb_platform _ _ _ V1) (vb_platform _ _ _ V2) (vb_image _ _ _ V1) (vb_image _ _ _ V2) (vb_fits _ _ _ V1) (vb_fits _ _ _ V2) Ec Ew Eh Hsi HL Hk Hr).
Qed.

(** ** Whole rows of MCUs: [m] rows of the interleaved scan are made of 8 vmax m rows of the image *)
Lemma firstn_flat {A B} (g : A -> list B) w : forall l m, (forall a, In a l -> length (g a) = w) -> firstn (m * w) (flat_map g l) = flat_map g (firstn m l).
Proof.
  induction l as [|a l IH]; intros m H; [cbn [flat_map]; rewrite !firstn_nil; reflexivity|]. destruct m as [|m]; [reflexivity|].
  cbn [flat_map firstn Nat.mul]. rewrite <- IH by (intros b Hb; apply H; now right). rewrite firstn_app, (H a (or_introl eq_refl)), firstn_all2 by (rewrite (H a (or_introl eq_refl)); lia).
  f_equal. f_equal. lia.
Qed.
Theorem C77_whole_rows : forall s color w h si c1 c2 cs m, si_comps si = c1 :: c2 :: cs -> (forall ci, In ci (si_comps si) -> (ci < length (fr_comps (frame_for s color w h)))%nat) ->
  let f := frame_for s color w h in 0 <= m -> made_of_rows f si (Z.to_nat (m * mcus_wide f)) (8 * vmax f * m).
Proof.
  intros s color w h si c1 c2 cs m Hsi Hall f Hm ci y x c I N. apply Z.min_le_iff. right.
  unfold first_units, mcus_of, scan_mcus in I. rewrite Hsi in Hall, I. cbn [flat_map] in I.
  fold f in Hall. destruct (nth_error (fr_comps f) c1) as [d1|] eqn:N1; [|apply nth_error_None in N1; specialize (Hall c1 ltac:(cbn; auto)); lia].
  destruct (nth_error (fr_comps f) c2) as [d2|] eqn:N2; [|apply nth_error_None in N2; specialize (Hall c2 ltac:(cbn; auto)); lia].
  cbn [app] in I. unfold interleaved_mcus in I.
  set (cc := (c1, d1) :: (c2, d2) :: _) in I.
  assert (W : forall ci' c', In (ci', c') cc -> nth_error (fr_comps f) ci' = Some c').
  { intros ci' c' [H|[H|H]]; [congruence|congruence|]. apply in_flat_map in H as (i & _ & H). destruct (nth_error (fr_comps f) i) eqn:E; [|destruct H]. destruct H as [H|[]]. congruence. }
  clearbody cc. assert (HW : Z.to_nat (m * mcus_wide f) = (Z.to_nat m * Z.to_nat (mcus_wide f))%nat) by (destruct (Z.le_gt_cases 0 (mcus_wide f)); [now apply Z2Nat.inj_mul|replace (Z.to_nat (mcus_wide f)) with 0%nat by lia; nia]).
  rewrite HW, firstn_flat in I by (intros a _; rewrite map_length; unfold upto; rewrite map_length, seq_length; reflexivity).
  apply in_concat in I as (mm & Hmm & I). apply in_flat_map in Hmm as (my & Hmy & Hmm). apply in_map_iff in Hmm as (mx & <- & _).
  apply in_flat_map in I as ([ci' c'] & Hc & I). apply in_flat_map in I as (v & Hv & I). apply in_map_iff in I as (hh & Hh & _). injection Hh as <- <- <-.
  pose proof (W _ _ Hc) as N'. rewrite N in N'. injection N' as <-.
  destruct (steps_exact s color w h c (nth_error_In _ _ N)) as (Ph & Pv & Px & Py & _ & Eyy). fold f in Px, Py, Eyy. unfold top.
  assert (Hy : 0 <= my < m).
  { unfold upto in Hmy. rewrite firstn_map in Hmy. apply in_map_iff in Hmy as (j & <- & Hj). 
    assert (K : forall b l a, In j (firstn b (seq a l)) -> (a <= j < a + b)%nat).
    { clear. induction b as [|b IH]; intros l a H; [destruct H|]. destruct l as [|l]; [destruct H|]. destruct H as [H|H]; [lia|]. apply IH in H. lia. }
    apply K in Hj. lia. }
  assert (Hv' : 0 <= v < co_v c) by (unfold upto in Hv; apply in_map_iff in Hv as (j & <- & Hj); apply in_seq in Hj; lia).
  rewrite Eyy. replace (8 * (step_y f c * co_v c) * m) with (8 * (m * co_v c) * step_y f c) by ring.
  apply Z.mul_le_mono_nonneg_r; [lia|]. nia.
Qed.

(** A case: 9 x 17 pixels with 2 x 2 subsampling, two MCUs; the last row differs, the first MCU is settled. *)
Definition other_row : list Z := firstn 432 light_bytes ++ map (fun b => 255 - b) (skipn 432 light_bytes).
Example C77_case : exists si, si_comps si = [0; 1; 2]%nat /\
  same_rows Rgb light_bytes other_row 9 16 /\ light_bytes <> other_row /\ length (mcus_of (frame_for (settings_of 60 [CSampling F_2_2]) JYcbcr 9 17) si) = 2%nat /\
  exists bytes1 bytes2, exec (run_encode debug64 60 [CSampling F_2_2] light_bytes 9 17 Rgb) = (bytes1, Ok tt) /\
    exec (run_encode release32 60 [CSampling F_2_2] other_row 9 17 Rgb) = (bytes2, Ok tt) /\
    same_start int_dct (settings_of 60 [CSampling F_2_2]) JYcbcr (spec_plane Rgb light_bytes 9) 9 17 si 1 bytes1 bytes2.
Proof.
  assert (G : same_rows Rgb light_bytes other_row 9 16).
  { intros y x i Hy Hx Hi. cbn [spec_bpp] in *. unfold pixel_byte, other_row. rewrite app_nth1; [|change (length (firstn 432 light_bytes)) with 432%nat; lia].
    assert (L : (Z.to_nat ((y * 9 + x) * 3 + i) < 432)%nat) by lia. revert L. generalize (Z.to_nat ((y * 9 + x) * 3 + i)). intros n L.
    rewrite <- (firstn_skipn 432 light_bytes) at 1. rewrite app_nth1; [reflexivity|]. change (length (firstn 432 light_bytes)) with 432%nat. exact L. }
  exists {| si_comps := [0; 1; 2]%nat; si_ss := 0; si_se := 63 |}. split; [reflexivity|]. split; [exact G|].
  split; [intros H; apply (f_equal (fun l => nth 450 l 0)) in H; vm_compute in H; discriminate|]. split; [vm_compute; reflexivity|].
  apply (C77_start debug64 release32 60 [CSampling F_2_2] light_bytes other_row 9 17 Rgb 1 16) with (more := []).
  - repeat constructor.
  - reflexivity.
  - constructor; try (vm_compute; split; discriminate); [now right| |vm_compute; discriminate]. apply bytes_by_check. vm_compute. reflexivity.
  - constructor; try (vm_compute; split; discriminate); [now left| |vm_compute; discriminate]. apply bytes_by_check. vm_compute. reflexivity.
  - exact G.
  - reflexivity.
  - assert (L : length (mcus_of (frame_for (settings_of 60 [CSampling F_2_2]) JYcbcr 9 17) {| si_comps := [0; 1; 2]%nat; si_ss := 0; si_se := 63 |}) = 2%nat) by (vm_compute; reflexivity).
    cbn [spec_color]. rewrite L. lia.
  - refine (C77_whole_rows (settings_of 60 [CSampling F_2_2]) JYcbcr 9 17 {| si_comps := [0; 1; 2]%nat; si_ss := 0; si_se := 63 |} 0%nat 1%nat [2%nat] 1 eq_refl _ ltac:(lia)). cbn. intros ci H. lia.
Qed.
