(** C56: damage to the entropy-coded data of restart intervals stays in these intervals. *)
From Verif Require Import T81 SFile SEncode SHuff SAvx2 SRestart SDecide SDamage MAvx2 PAvx2 PAvxDct PParse PRest PDecide PCount PAll PPrefix PDamage
  ThmRound ThmScan ThmHuff ThmBytes ThmRestart ThmDecide ThmAvx2 ThmAll.
From Coq Require Import ZArith List Bool Lia.
Import ListNotations.
Open Scope Z_scope.

(** The call reports success, and the file written survives damage. *)
Definition contains (T : transform) (s : settings) (color : jcolor) (w h : Z) (pl : planes) (outcome : list Z * outcome unit) : Prop :=
  exists ps, outcome = (render_file ps, Ok tt) /\ survives T s color w h pl ps.

Lemma nth_group {A} k : (0 < k)%nat -> forall fuel (l : list A) q a, (length l <= fuel)%nat -> nth_error l q = Some a ->
  exists g, nth_error (group fuel k l) (q / k) = Some g /\ In a g.
Proof.
  intros Hk. induction fuel as [|fuel IH]; intros l q a Hl Hq.
  { destruct l; [destruct q; discriminate|cbn in Hl; lia]. }
  destruct l as [|b l]; [destruct q; discriminate|]. cbn [group]. set (l0 := b :: l) in *.
  assert (Hlen : length l0 = S (length l)) by reflexivity. clearbody l0. cbn [length] in Hl.
  destruct (lt_dec q k) as [Lt|Ge].
  - rewrite Nat.div_small by exact Lt. eexists. split; [reflexivity|].
    apply (nth_error_In _ q). rewrite <- (firstn_skipn k l0) in Hq. rewrite nth_error_app1 in Hq; [exact Hq|].
    rewrite firstn_length. assert (q < length (firstn k l0 ++ skipn k l0))%nat by (apply nth_error_Some; rewrite Hq; discriminate).
    rewrite firstn_skipn in H. lia.
  - assert (q < length l0)%nat by (apply nth_error_Some; rewrite Hq; discriminate).
    assert (E : (q / k = S ((q - k) / k))%nat).
    { replace q with ((q - k) + 1 * k)%nat at 1 by lia. rewrite Nat.div_add by lia. lia. }
    rewrite E. cbn [nth_error]. apply IH; [rewrite skipn_length; lia|].
    rewrite <- (firstn_skipn k l0) in Hq. rewrite nth_error_app2 in Hq by (rewrite firstn_length; lia).
    rewrite firstn_length, Nat.min_l in Hq by lia. exact Hq.
Qed.
Lemma nth_interval {A} r (l : list A) q a : 0 <= r -> nth_error l q = Some a ->
  exists g, nth_error (intervals r l) (interval_number r q) = Some g /\ In a g.
Proof.
  intros Hr Hq. unfold intervals, interval_number. destruct (r =? 0) eqn:E.
  - exists l. split; [reflexivity|]. exact (nth_error_In _ _ Hq).
  - apply Z.eqb_neq in E. replace (Z.to_nat (Z.of_nat q / r)) with (q / Z.to_nat r)%nat.
    + apply nth_group; [lia|lia|exact Hq].
    + apply Nat2Z.inj. rewrite Nat2Z.inj_div by lia. rewrite !Z2Nat.id; [reflexivity|apply Z.div_pos; lia|lia].
Qed.

Lemma quant_same j j' ci : j_frame j' = j_frame j -> j_qt j' = j_qt j -> quant j' ci = quant j ci.
Proof. intros E1 E2. unfold quant. rewrite E1, E2. reflexivity. Qed.

Lemma contains_with s op F T P im pl : settings_wf s -> op_ok op F -> transform_is F T -> plat_ok P -> image_ok im pl ->
  im_width im * im_height im < 2 ^ (ubits P - 1) ->
  (s_optimize s = true -> countable s (im_color im) (im_width im) (im_height im)) -> tables_generated s (im_color im) (im_width im) (im_height im) (encode_image_internal P op (enc_of s) im) ->
  representable T s (im_color im) pl (im_width im) (im_height im) ->
  contains T s (im_color im) (im_width im) (im_height im) pl (exec (encode_image_internal P op (enc_of s) im)).
Proof.
  intros Hs Hop HF HP Him Hfit Hfew Gn R.
  pose proof (proj2 (gives_with s op F T P im pl Hs Hop HF HP Him Hfit Hfew Gn) R) as (bytes & j & E & D & A).
  destruct (written_tables s Hs op F T Hop HF P HP im pl Him Hfit Hfew bytes E) as (t & Ht & Eb & _). subst bytes.
  destruct (dims _ _ Him) as [Hw Hh].
  set (color := im_color im) in *. set (w := im_width im) in *. set (h := im_height im) in *.
  set (f := frame_for s color w h). set (cf := coefficients_of T s color pl w h).
  assert (Hr : 0 <= s_restart s) by (destruct (sw_restart _ Hs); assumption).
  exists (file_parts t s f color cf). split; [exact E|]. clear E. split.
  - unfold f, cf. rewrite file_scans. fold f cf.
    assert (X : forall l, incl l (scan_script s color) -> Forall2 (fun (sc : list Z * list (list Z)) si => length (snd sc) = Z.to_nat (interval_count (s_restart s) (mcu_count f si)))
      (map (fun si => (scan_header f si, scan_data t f (s_restart s) cf si)) l) l).
    { induction l as [|si l IH]; intros Hl; [constructor|]. constructor; [|apply IH; intros x Hx; apply Hl; now right].
      cbn [snd]. unfold scan_data. rewrite map_length. 
      pose proof (mcus_length s color w h si ltac:(lia) ltac:(lia) (Hl si (or_introl eq_refl))) as M. fold f in M.
      rewrite <- M, <- PParts.intervals_length by exact Hr. rewrite Nat2Z.id. reflexivity. }
    apply X. apply incl_refl.
  - intros ps' Hd.
    assert (Hok : Forall part_ok (file_parts t s f color cf)) by (apply (parts_ok T t s color pl w h Hw Hh Ht (apps_wf s _ Hs))).
    change (jpeg_file_with T t s color pl w h) with (render_file (file_parts t s f color cf)) in D.
    pose proof (parts_split T t s color pl w h) as Sp. fold f cf in Sp. rewrite Sp in Hok, D, Hd |- *.
    assert (Hsc : Forall is_scan (map (the_scan T t s color pl w h) (scan_script s color))).
    { apply Forall_map, Forall_forall. intros si _. exact I. }
    pose proof (damage_contained _ _ j (header_segments t s color w h) Hsc Hok D) as DC.
    destruct (DC ps' Hd) as (j' & D' & E1 & E2 & E3 & E4 & E5 & G).
    exists j'. split; [exact D'|]. destruct A as [A1 A2 A3 A4 A5 A6].
    split; [congruence|]. split; [congruence|]. split; [congruence|]. split; [congruence|]. split.
    + intros ci c Hc. rewrite (quant_same j j' ci E1 E3). apply A5. exact Hc.
    + intros n si q mcu ci c y x k Hsi Hq Hu Hi Hc Hy Hx Hk Hk'.
      apply (G n si (interval_number (s_restart s) q)).
      * rewrite A4. exact Hsi.
      * exact Hi.
      * rewrite A1, A3. destruct (nth_interval (s_restart s) (mcus_of f si) q mcu Hr Hq) as (g & G1 & G2).
        exists g. split; [exact G1|]. apply in_concat. exists mcu. split; assumption.
      * exact Hk.
      * apply A6; [exact Hc|rewrite A1; exact Hy|rewrite A1; exact Hx|exact Hk'].
Qed.

(** ** C56 *)
Theorem C56_damage : forall P quality calls data w h c, let s := settings_of quality calls in
  valid_call P quality calls data w h c -> generated P quality calls data w h c -> representable int_dct s (spec_color c) (spec_plane c data w) w h ->
  contains int_dct s (spec_color c) w h (spec_plane c data w) (exec (run_encode P quality calls data w h c)).
Proof.
  intros P quality calls data w h c s [C V Hfew] Gn R. unfold tables_generated in Gn. rewrite run_encode_eq in * by assumption. fold s in Gn |- *.
  pose proof (contains_with s default_operations fdct_pure int_dct P _ _ (settings_of_wf quality calls C) default_op_ok fdct_is_int_dct
    (vi_platform _ _ _ _ _ V) (valid_image _ _ _ _ _ V)) as G.
  rewrite image_of_width, image_of_height, image_of_color in G. apply G; [apply (valid_fits _ _ _ _ _ V)|exact Hfew|exact Gn|exact R].
Qed.
Theorem C56_damage_image : forall P quality calls im pl, let s := settings_of quality calls in
  let color := im_color im in let w := im_width im in let h := im_height im in
  Forall call_wf calls -> valid_buffer P im pl -> (s_optimize s = true -> countable s color w h) -> tables_generated s color w h (run_encode_image P quality calls im) -> representable int_dct s color pl w h ->
  contains int_dct s color w h pl (exec (run_encode_image P quality calls im)).
Proof.
  intros P quality calls im pl s color w h C V Hfew Gn R. unfold tables_generated in Gn. rewrite run_encode_image_eq in * by assumption. fold s in Gn |- *.
  exact (contains_with s default_operations fdct_pure int_dct P im pl (settings_of_wf quality calls C) default_op_ok fdct_is_int_dct
    (vb_platform _ _ _ V) (vb_image _ _ _ V) (vb_fits _ _ _ V) Hfew Gn R).
Qed.
Theorem C56_damage_simd : forall P quality calls data w h c, let s := settings_of quality calls in
  valid_call P quality calls data w h c -> generated_simd P quality calls data w h c -> representable avx2_dct s (spec_color c) (spec_plane c data w) w h ->
  contains avx2_dct s (spec_color c) w h (spec_plane c data w) (exec (run_encode_avx2 P quality calls data w h c)).
Proof.
  intros P quality calls data w h c s [C V Hfew] Gn R. unfold tables_generated in Gn. rewrite run_avx2_eq in * by assumption. fold s in Gn |- *.
  pose proof (contains_with s avx2_operations avx2_pure avx2_dct P _ _ (settings_of_wf quality calls C) avx2_op_ok avx2_is_dct
    (vi_platform _ _ _ _ _ V) (valid_image _ _ _ _ _ V)) as G.
  rewrite image_of_width, image_of_height, image_of_color in G. apply G; [apply (valid_fits _ _ _ _ _ V)|exact Hfew|exact Gn|exact R].
Qed.

(** ** A concrete case: 16 x 8 pixels of greyscale, a restart interval of one block.  With the first interval
    overwritten the file is no longer valid, but the second block is there; without restart markers (the
    second part) both blocks are in one interval. *)
Definition ex_restart : list call := [CRestart 1].
Definition ex_parts : list part :=
  let s := settings_of 90 ex_restart in
  file_parts annexK_tables s (frame_for s JLuma 16 8) JLuma (coefficients_of int_dct s JLuma (spec_plane Luma bad_data 16) 16 8).
Definition hit (p : part) : part := match p with Scan h (d :: ds) => Scan h ([255; 255; 7] :: ds) | _ => p end.
Definition shown (o : option jpeg) : option (option Z * option Z * option Z) :=
  match o with Some j => Some (coef j 0 0 0 0, coef j 0 0 1 0, coef j 0 0 1 63) | None => None end.

Example C56_case_hypotheses :
  valid_call debug64 90 ex_restart bad_data 16 8 Luma /\
  representable int_dct (settings_of 90 ex_restart) JLuma (spec_plane Luma bad_data 16) 16 8.
Proof.
  split.
  - constructor; [repeat constructor; vm_compute; intuition discriminate|apply bad_valid; right; reflexivity|discriminate].
  - split; [split|split].
    + intros c i Hc Hi. destruct Hc as [<-|[]]. cbn [co_tq].
      pose proof (below64 (fun i => quantizer (settings_of 90 ex_restart) 0 i <=? 255) ltac:(vm_compute; reflexivity) i Hi). cbv beta in *. lia.
    + intros i Hi.
      pose proof (below64 (fun i => negb (quantizer (settings_of 90 ex_restart) 1 i mod 256 =? 0)) ltac:(vm_compute; reflexivity) i Hi). cbv beta in *. lia.
    + exact I.
    + discriminate.
Qed.
Example C56_case :
  exec (run_encode debug64 90 ex_restart bad_data 16 8 Luma) = (render_file ex_parts, Ok tt) /\
  damaged ex_parts (map hit ex_parts) /\ decode (render_file (map hit ex_parts)) = None /\
  shown (decode (render_file ex_parts)) = Some (Some 85, Some 139, Some 0) /\
  shown (lenient_decode (render_file (map hit ex_parts))) = Some (None, Some 139, Some 0) /\
  intact ex_parts (map hit ex_parts) 0 (interval_number 1 1) /\ ~ intact ex_parts (map hit ex_parts) 0 (interval_number 1 0) /\
  interval_number 0 1 = interval_number 0 0.
Proof.
  split; [|split; [|split; [|split; [|split; [|split; [|split]]]]]].
  - destruct C56_case_hypotheses as [[C V _] _]. apply (C40_exact_bytes debug64 90 ex_restart bad_data 16 8 Luma C); [reflexivity|exact V].
  - assert (B : forallb (fun p => match p with Scan _ ds => forallb (forallb (fun b => (0 <=? b) && (b <=? 255))) ds | _ => true end) ex_parts = true)
      by (vm_compute; reflexivity).
    revert B. generalize ex_parts. induction l as [|p ps IH]; [constructor|]. cbn [map forallb]. intros B. apply andb_prop in B as [B1 B2].
    constructor; [|exact (IH B2)]. destruct p as [m d|hd [|d ds]]; cbn [hit damaged_part]; [reflexivity| |].
    + split; [reflexivity|]. split; [reflexivity|constructor].
    + split; [reflexivity|]. split; [reflexivity|]. constructor; [repeat constructor; lia|].
      cbn [forallb] in B1. apply andb_prop in B1 as [_ B1]. apply Forall_forall. intros l Hl. apply Forall_forall. intros b Hb.
      rewrite forallb_forall in B1. specialize (B1 l Hl). rewrite forallb_forall in B1. specialize (B1 b Hb). lia.
  - vm_compute. reflexivity.
  - vm_compute. reflexivity.
  - vm_compute. reflexivity.
  - exists [1; 0; 0; 0; 63; 0], [[245; 90]; [250; 46; 191]], [1; 0; 0; 0; 63; 0], [[255; 255; 7]; [250; 46; 191]], [250; 46; 191].
    split; [vm_compute; reflexivity|]. split; [vm_compute; reflexivity|]. split; vm_compute; reflexivity.
  - intros (h & ds & h' & ds' & d & E1 & E2 & E3 & E4).
    assert (F1 : nth_error (scans ex_parts) 0 = Some ([1; 0; 0; 0; 63; 0], [[245; 90]; [250; 46; 191]])) by (vm_compute; reflexivity).
    assert (F2 : nth_error (scans (map hit ex_parts)) 0 = Some ([1; 0; 0; 0; 63; 0], [[255; 255; 7]; [250; 46; 191]])) by (vm_compute; reflexivity).
    rewrite F1 in E1. rewrite F2 in E2. injection E1 as _ <-. injection E2 as _ <-.
    change (interval_number 1 0) with 0%nat in E3, E4. cbn [nth_error] in E3, E4. congruence.
  - reflexivity.
Qed.
