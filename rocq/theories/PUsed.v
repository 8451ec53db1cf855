(** The symbols of the tables of a file. *)
From Verif Require Import T81 SFile SEncode SSize SHuff SRestart SUsed PSmall PRest PParse PBytes PSegments PCode PDecide PCount SDecide PMax ThmScan ThmRound ThmHuff ThmBytes.
From Coq Require Import ZArith List Bool Lia.
Import ListNotations.
Open Scope Z_scope.

Lemma in_table h tb v : valid_tab h tb -> codes h tb v -> In v (h_values h).
Proof.
  intros V (Hr & size & code & _ & _ & _ & D). specialize (D []).
  pose proof (vt_build _ _ V) as B. destruct (table_facts _ _ _ B (vt_vals _ _ V)) as (_ & _ & <-). clear B V.
  revert D. generalize (bits_of size code ++ []). intros bits. induction tb as [|[w s] tb IH]; cbn [decode_symbol map snd]; [discriminate|].
  destruct (strip w bits); [|intros D; right; exact (IH D)]. intros D. left. congruence.
Qed.

Section Used.
  Variable s : settings.
  Variable Hs : settings_wf s.
  Variable Hopt : s_optimize s = true.
  Variable op : operations.
  Variable F : list Z -> list Z.
  Variable T : transform.
  Variable Hop : op_ok op F.
  Variable HF : transform_is F T.
  Variable im : image.
  Variable pl : planes.
  Variable Him : image_ok im pl.
  Let e := enc_of s.
  Let He : enc_ok e (s_luma s) (s_chroma s) := enc_of_ok s Hs.
  Let color := im_color im.
  Let cs := init_components (e_sampling e) color.
  Let mh := max_h (e_sampling e) color.
  Let mv := max_v (e_sampling e) color.
  Let q0 := qtable_of (s_luma s) (e_quality e) true.
  Let q1 := qtable_of (s_chroma s) (e_quality e) false.
  Let uns := units im pl F mh mv q0 q1.
  Let bs (i : Z) : list (list Z) := match nth_error cs (Z.to_nat i) with Some c => map snd (uns (Z.to_nat i) c) | None => [] end.
  Let f := frame_for s color (im_width im) (im_height im).
  Let cf := coefficients_of T s color pl (im_width im) (im_height im).
  Let Hcs : comps_ok cs mh mv. Proof. apply init_components_ok. Qed.
  Let Hn : length cs = Z.to_nat (num_components color). Proof. apply init_components_length. Qed.
  Let Hprog' : match e_prog e with Some n => 2 <= n <= 64 | None => True end.
  Proof. exact (eo_prog _ _ _ He). Qed.
  Variable Hfew : countable s (im_color im) (im_width im) (im_height im).
  Variables (d0 a0 d1 a1 : htab) (bd0 ba0 bd1 ba1 : table).
  Variable Ht : opt_tables reference im pl F e (s_luma s) (s_chroma s) d0 a0 d1 a1 bd0 ba0 bd1 ba1.
  Let t := tables_of d0 a0 d1 a1.

  (** The tables hold exactly the symbols of the lists they were made from. *)
  Lemma exact_one l x bx : Forall small l -> l <> [] -> 1 + Z.of_nat (length l) < 4294967296 ->
    table_for_syms reference l x bx -> forall v, In v (h_values x) <-> In v l.
  Proof.
    intros S N L Tx v. pose proof Tx as (_ & V & C). split.
    - intros Hv. destruct (in_dec Z.eq_dec v l) as [H|H]; [exact H|]. exfalso. apply (not_missing _ _ v V Hv).
      pose proof (vt_vals _ _ V) as Hr. unfold bytes_ok in Hr. rewrite Forall_forall in Hr. specialize (Hr v Hv).
      exact (table_misses reference l x bx v S N L Tx Hr H).
    - intros Hv. exact (in_table _ _ _ V (C v Hv)).
  Qed.
  Lemma exact_lists d : In d (destinations f) ->
    (forall v, In v (snd (tb_dc t d)) <-> In v (all_dc cs bs d)) /\ (forall v, In v (snd (tb_ac t d)) <-> In v (all_ac e cs bs d)).
  Proof.
    intros Hd. destruct (tables_made s Hs Hopt op F Hop im pl Him Hfew _ _ _ _ _ _ _ _ Ht) as [[T0 T0'] T1].
    pose proof (bs_ok im pl Him op F Hop e _ _ He) as B.
    pose proof (bs_idx reference im pl F e (s_luma s) (s_chroma s)) as BI.
    pose proof (fun i c Hi => proj2 (bs_len im pl Him F e (s_luma s) (s_chroma s) Hopt i c Hi)) as BN.
    assert (BT : block_total cs bs = block_count f).
    { pose proof (total_eq im pl Him F e (s_luma s) (s_chroma s) Hopt) as E.
      change (block_total cs bs = frame_blocks (frame_of (match e_prog e with Some _ => true | None => false end) (im_width im) (im_height im) cs)) in E.
      rewrite E. unfold cs, e, color. rewrite frame_for_eq. reflexivity. }
    assert (G : forall d x y bx by_, (exists i c, In (i, c) (enumerate cs) /\ c_dc c = d /\ c_ac c = d) ->
      table_for_syms reference (all_dc cs bs d) x bx -> table_for_syms reference (all_ac e cs bs d) y by_ ->
      (forall v, In v (h_values x) <-> In v (all_dc cs bs d)) /\ (forall v, In v (h_values y) <-> In v (all_ac e cs bs d))).
    { intros d' x y bx by_ Hd' Tx Ty. destruct (all_dc_ok cs _ bs BI B BN d') as [S1 L1]. destruct (all_ac_ok e Hprog' cs _ bs BI B BN d') as [S2 L2].
      destruct (nonempty s Hs Hopt op F Hop im pl Him d' Hd') as [N1 N2].
      rewrite BT in L1, L2. pose proof Hfew as HB. unfold countable in HB. fold color f in HB.
      split; [apply (exact_one (all_dc cs bs d') x bx)|apply (exact_one (all_ac e cs bs d') y by_)]; try assumption.
      - clear - L1 HB. revert L1 HB. generalize (block_count f) (Z.of_nat (length (all_dc cs bs d'))). clear. intros; lia.
      - clear - L2 HB. revert L2 HB. generalize (block_count f) (Z.of_nat (length (all_ac e cs bs d'))). clear. intros; lia. }
    assert (Ln : length (fr_comps f) = length cs) by (unfold f; rewrite <- frame_for_eq; unfold frame_of; cbn [fr_comps]; apply map_length).
    unfold destinations in Hd. rewrite Ln in Hd. destruct (3 <=? length cs)%nat eqn:E3.
    - assert (L1 : zlen cs <> 1) by (unfold zlen; apply Nat.leb_le in E3; lia). destruct (T1 L1) as [T2 T2'].
      destruct Hd as [<-|[<-|[]]]; unfold t; cbn [tables_of tb_dc tb_ac Z.eqb Pos.eqb].
      + exact (G 0 d0 a0 bd0 ba0 (uses_table0 _ _) T0 T0').
      + exact (G 1 d1 a1 bd1 ba1 (uses_table1 _ _ L1) T2 T2').
    - destruct Hd as [<-|[]]. unfold t; cbn [tables_of tb_dc tb_ac Z.eqb Pos.eqb].
      exact (G 0 d0 a0 bd0 ba0 (uses_table0 _ _) T0 T0').
  Qed.

  (** The list of DC categories *)
  Lemma dc_list d v : In v (all_dc cs bs d) <-> dc_counted cf f d v.
  Proof.
    pose proof (all_dc_eq s F im pl d) as E. fold e color cs mh mv q0 q1 uns bs in E. rewrite E, in_flat_map. clear E. split.
    - intros ([j c] & Hj & Hv). cbn [fst snd] in Hv. destruct (c_qt c =? d) eqn:Eq; [|destruct Hv]. apply Z.eqb_eq in Eq.
      destruct (in_enum_at s F im pl j c Hj) as [Hj' _]. exists (Z.to_nat j), (comp_of c).
      split; [exact (comp_at s im _ c Hj')|]. split; [exact Eq|].
      unfold f, cf, color. rewrite (counted_eq s Hs Hopt op F T Hop HF im pl Him _ c Hj').
      rewrite Z2Nat.id; [exact Hv|]. apply in_enum in Hj. lia.
    - intros (ci & c0 & Hc & Eq & Hv). destruct (comp_back s im ci c0 Hc) as (c & Hi & ->).
      exists (Z.of_nat ci, c). split; [now apply in_enum_nat|]. cbn [fst snd]. cbn [comp_of co_tq] in Eq. rewrite Eq, Z.eqb_refl.
      unfold f, cf, color in Hv. rewrite (counted_eq s Hs Hopt op F T Hop HF im pl Him _ c Hi) in Hv. exact Hv.
  Qed.

  (** The AC symbols *)
  Lemma scan_units ss se i c : nth_error cs i = Some c ->
    concat (mcus_of f {| si_comps := [i]; si_ss := ss; si_se := se |}) = map fst (uns i c).
  Proof.
    intros Hi. unfold mcus_of. cbn [si_comps flat_map app]. unfold f, color. rewrite (comp_at s im i c Hi). cbn [app scan_mcus].
    rewrite <- frame_for_eq. rewrite (single_mcus_units im pl F cs mh mv Hcs q0 q1 _ _ c Hi). apply concat_singles.
  Qed.
  (** Bands and scans: every band is the AC part of the scan of each component, and no scan has another. *)
  Definition band_scan (b : Z * Z) : Z * Z := match e_prog e with Some _ => (fst b, snd b - 1) | None => (0, 63) end.
  Lemma scans_bands si : In si (scan_script s color) -> (exists i c, In (i, c) (enumerate cs) /\ si_comps si = [Z.to_nat i] /\
    ((si_ss si = 0 /\ si_se si = 0) \/ exists b, In b (count_bands e) /\ (si_ss si, si_se si) = band_scan b)).
  Proof.
    rewrite <- (body_scans_eq s color Hs). unfold body_scans. fold e.
    change (init_components (s_sampling s) color) with cs. change (e_optimize e) with (s_optimize s). rewrite Hopt. unfold count_bands, band_scan.
    destruct (e_prog e) as [n|].
    - intros Hi. apply in_app_or in Hi as [Hi|Hi].
      + apply in_map_iff in Hi as ([i c] & <- & Hic). exists i, c. split; [exact Hic|]. split; [reflexivity|left; split; reflexivity].
      + unfold ac_scans in Hi. apply in_flat_map in Hi as (b & Hb & Hi). apply in_map_iff in Hi as ([i c] & <- & Hic).
        exists i, c. split; [exact Hic|]. split; [reflexivity|]. right. exists b. split; [exact Hb|reflexivity].
    - cbn [orb]. intros Hi. apply in_map_iff in Hi as ([i c] & <- & Hic). exists i, c. split; [exact Hic|]. split; [reflexivity|].
      right. exists (1, 64). split; [left; reflexivity|reflexivity].
  Qed.
  Lemma bands_scans i c b : In (i, c) (enumerate cs) -> In b (count_bands e) ->
    In {| si_comps := [Z.to_nat i]; si_ss := fst (band_scan b); si_se := snd (band_scan b) |} (scan_script s color).
  Proof.
    rewrite <- (body_scans_eq s color Hs). unfold body_scans. fold e.
    change (init_components (s_sampling s) color) with cs. change (e_optimize e) with (s_optimize s). rewrite Hopt. unfold count_bands, band_scan.
    intros Hic Hb. destruct (e_prog e) as [n|].
    - apply in_or_app. right. unfold ac_scans. apply in_flat_map. exists b. split; [exact Hb|]. apply in_map_iff. exists (i, c). split; [reflexivity|exact Hic].
    - cbn [orb]. apply in_map_iff. exists (i, c). split; [reflexivity|exact Hic].
  Qed.
  Lemma band_values b u i : In b (count_bands e) -> ci_of u = i /\ agrees cf u ->
    slice (snd u) (fst b) (snd b) = map (cf i (snd (fst (fst u))) (snd (fst u))) (band (Z.max 1 (fst (band_scan b))) (snd (band_scan b))).
  Proof.
    destruct u as [[[j y] x] blk]. cbn [fst snd ci_of]. intros Hb [<- Ha]. destruct (count_bands_width e Hprog') as [Hbd _]. rewrite Forall_forall in Hbd.
    destruct (Hbd b Hb) as [B1 B2]. unfold band_scan, count_bands in *. destruct (e_prog e) as [n|].
    - cbn [fst snd]. rewrite Z.max_r by lia. apply agrees_slice; [exact Ha|lia|lia].
    - destruct Hb as [<-|[]]. cbn [fst snd]. change (Z.max 1 0) with 1. change 63 with (64 - 1). apply agrees_slice; [exact Ha|lia|lia].
  Qed.
  Lemma ac_list d v : In v (all_ac e cs bs d) <-> ac_occurs cf f (scan_script s color) d v.
  Proof.
    pose proof (all_ac_eq s F im pl d) as E. fold e color cs mh mv q0 q1 uns bs in E. rewrite E, in_flat_map. clear E. split.
    - intros ([i c] & Hic & Hv). cbn [fst snd] in Hv. destruct (c_qt c =? d) eqn:Eq; [|destruct Hv]. apply Z.eqb_eq in Eq.
      destruct (in_enum_at s F im pl i c Hic) as [Hi Eb]. change (nth_error cs (Z.to_nat i) = Some c) in Hi. change (bs i = map snd (uns (Z.to_nat i) c)) in Eb.
      apply in_flat_map in Hv as (b & Hb & Hv). unfold band_syms in Hv. apply in_flat_map in Hv as (blk & Hblk & Hv).
      rewrite Eb in Hblk. apply in_map_iff in Hblk as (u & <- & Hu).
      pose proof (units_fine s Hs op F T Hop HF im pl Him (Z.to_nat i) c Hi) as UF. rewrite Forall_forall in UF. specialize (UF u Hu).
      exists {| si_comps := [Z.to_nat i]; si_ss := fst (band_scan b); si_se := snd (band_scan b) |}, (Z.to_nat i), (comp_of c), (snd (fst (fst u))), (snd (fst u)).
      split; [exact (bands_scans i c b Hic Hb)|]. split.
      { rewrite (scan_units _ _ _ c Hi). apply in_map_iff. exists u. split; [|exact Hu].
        destruct UF as [U _]. destruct u as [[[j y] x] blk]. cbn [ci_of fst snd] in *. now rewrite U. }
      split; [exact (comp_at s im _ c Hi)|]. split; [exact Eq|]. cbn [si_ss si_se].
      rewrite <- (band_values b u (Z.to_nat i) Hb UF), ac_symbols_eq. exact Hv.
    - intros (si & ci & c0 & y & x & Hsi & Hu & Hc & Eq & Hv).
      destruct (scans_bands si Hsi) as (i & c & Hic & Ec & Hbd). destruct (in_enum_at s F im pl i c Hic) as [Hi Eb]. change (nth_error cs (Z.to_nat i) = Some c) in Hi. change (bs i = map snd (uns (Z.to_nat i) c)) in Eb.
      destruct si as [cps ss se]. cbn [si_comps si_ss si_se] in *. subst cps. rewrite (scan_units _ _ _ c Hi) in Hu.
      apply in_map_iff in Hu as (u & Eu & Hu).
      pose proof (units_fine s Hs op F T Hop HF im pl Him (Z.to_nat i) c Hi) as UF. rewrite Forall_forall in UF. specialize (UF u Hu).
      assert (Ei : ci = Z.to_nat i) by (destruct UF as [U _]; destruct u as [[[j y'] x'] blk]; cbn [ci_of fst] in *; congruence). subst ci.
      pose proof (comp_at s im _ c Hi) as Hc'. fold e color cs mh mv q0 q1 uns bs in Hc'. fold f in Hc'. rewrite Hc in Hc'.
      assert (Ec0 : c0 = comp_of c) by congruence. subst c0. cbn [comp_of co_tq] in Eq.
      exists (i, c). split; [exact Hic|]. cbn [fst snd]. rewrite Eq, Z.eqb_refl.
      destruct Hbd as [[-> ->]|(b & Hb & Es)].
      { cbn in Hv. destruct Hv. }
      apply in_flat_map. exists b. split; [exact Hb|]. unfold band_syms. apply in_flat_map. exists (snd u). split; [rewrite Eb; apply in_map, Hu|].
      rewrite (band_values b u (Z.to_nat i) Hb UF), Eu, <- ac_symbols_eq. cbn [fst snd]. rewrite <- Es. exact Hv.
  Qed.

  Theorem exact_tables d : In d (destinations f) ->
    (forall v, In v (snd (tb_dc t d)) <-> dc_counted cf f d v) /\ (forall v, In v (snd (tb_ac t d)) <-> ac_occurs cf f (scan_script s color) d v).
  Proof.
    intros Hd. destruct (exact_lists d Hd) as [H1 H2]. split; intros v; [rewrite H1; apply dc_list|rewrite H2; apply ac_list].
  Qed.
  Lemma opt_proper : proper t f.
  Proof.
    intros d Hd. destruct (exact_lists d Hd) as [H1 H2]. destruct Ht as (_ & V0 & V1 & V2 & V3 & _).
    assert (ND : forall x tb, valid_tab x tb -> NoDup (h_values x)) by (intros x tb V; exact (proj1 (proj2 (build_table_inv _ _ _ (vt_build _ _ V))))).
    split; [|split; [|split]].
    - unfold t. cbn [tables_of tb_dc]. destruct (d =? 0); eapply ND; eassumption.
    - unfold t. cbn [tables_of tb_ac]. destruct (d =? 0); eapply ND; eassumption.
    - apply Forall_forall. intros v Hv. apply H1 in Hv.
      pose proof (all_dc_eq s F im pl d) as E. fold e color cs mh mv q0 q1 uns bs in E. rewrite E, in_flat_map in Hv. clear E.
      destruct Hv as ([j c] & Hj & Hv). cbn [fst snd] in Hv. destruct (c_qt c =? d); [|destruct Hv].
      pose proof (bs_ok im pl Him op F Hop e _ _ He j c Hj) as B. change (Forall block_ok (bs j)) in B.
      pose proof (dc_syms_bound _ 0 B ltac:(lia)) as Bd. rewrite Forall_forall in Bd. exact (Bd _ Hv).
    - apply Forall_forall. intros v Hv. apply H2 in Hv.
      pose proof (all_ac_eq s F im pl d) as E. fold e color cs mh mv q0 q1 uns bs in E. rewrite E, in_flat_map in Hv. clear E.
      destruct Hv as ([j c] & Hj & Hv). cbn [fst snd] in Hv. destruct (c_qt c =? d); [|destruct Hv].
      pose proof (bs_ok im pl Him op F Hop e _ _ He j c Hj) as B. change (Forall block_ok (bs j)) in B.
      apply in_flat_map in Hv as (b & Hb & Hv). unfold band_syms in Hv. apply in_flat_map in Hv as (blk & Hblk & Hv).
      destruct (count_bands_width e Hprog') as [Hbd _]. rewrite Forall_forall in Hbd, B. destruct (Hbd b Hb) as [B1 B2].
      pose proof (ac_syms_form (slice blk (fst b) (snd b)) 0 (block_ok_slice blk (fst b) (snd b) (B blk Hblk) ltac:(lia) ltac:(lia)) ltac:(lia)) as Hf.
      rewrite Forall_forall in Hf. destruct (Hf v Hv) as [H|[H|(r & k & H)]]; [left; exact H|right; left; exact H|right; right; exists r, k; lia].
  Qed.
End Used.

Lemma annexK_proper f : proper annexK_tables f.
Proof.
  assert (ND : forall l, (if List.list_eq_dec Z.eq_dec (nodup Z.eq_dec l) l then true else false) = true -> NoDup l).
  { intros l. destruct (List.list_eq_dec Z.eq_dec (nodup Z.eq_dec l) l) as [E|E]; [|discriminate]. intros _. rewrite <- E. apply NoDup_nodup. }
  intros d _. unfold annexK_tables. cbn [tb_dc tb_ac].
  assert (D : forall l, forallb (fun v => (0 <=? v) && (v <=? 11)) l = true -> Forall dc_symbol l).
  { intros l H. apply Forall_forall. intros v Hv. rewrite forallb_forall in H. specialize (H v Hv). unfold dc_symbol. lia. }
  assert (A : forall l, forallb (fun v => (v =? 0) || (v =? 240) || ((0 <=? v) && (v <? 256) && (1 <=? v mod 16) && (v mod 16 <=? 10))) l = true -> Forall ac_symbol l).
  { intros l H. apply Forall_forall. intros v Hv. rewrite forallb_forall in H. specialize (H v Hv). unfold ac_symbol.
    destruct (v =? 0) eqn:E0; [left; lia|]. destruct (v =? 240) eqn:E1; [right; left; lia|]. cbn [orb] in H. right; right.
    exists (v / 16), (v mod 16). pose proof (Z.div_mod v 16 ltac:(lia)). assert (0 <= v / 16 <= 15); [|lia].
    split; [apply Z.div_pos; lia|]. assert (v / 16 < 16) by (apply Z.div_lt_upper_bound; lia). lia. }
  destruct (d =? 0); (split; [apply ND; vm_compute; reflexivity|]); (split; [apply ND; vm_compute; reflexivity|]);
    (split; [apply D; vm_compute; reflexivity|apply A; vm_compute; reflexivity]).
Qed.

Section Written.
  Variable s : settings.
  Variable Hs : settings_wf s.
  Variable op : operations.
  Variable F : list Z -> list Z.
  Variable T : transform.
  Variable Hop : op_ok op F.
  Variable HF : transform_is F T.
  Variable P : platform.
  Variable HP : plat_ok P.
  Variable im : image.
  Variable pl : planes.
  Variable Him : image_ok im pl.
  Variable Hfit : im_width im * im_height im < 2 ^ (ubits P - 1).
  Let color := im_color im.
  Let w := im_width im.
  Let h := im_height im.
  Let f := frame_for s color w h.
  Let cf := coefficients_of T s color pl w h.
  Variable Hfew : s_optimize s = true -> countable s color w h.

  Lemma used_tables bytes : exec (encode_image_internal P op (enc_of s) im) = (bytes, Ok tt) ->
    exists t, bytes = jpeg_file_with T t s color pl w h /\ proper t f /\
      (s_optimize s = true -> forall d, In d (destinations f) ->
        (forall v, In v (snd (tb_dc t d)) <-> dc_counted cf f d v) /\
        (forall v, In v (snd (tb_ac t d)) <-> ac_occurs cf f (scan_script s color) d v)) /\
      (s_optimize s = false -> t = annexK_tables).
  Proof.
    intros E. destruct (s_optimize s) eqn:O.
    - destruct (opt_tables_done s Hs O op F Hop P im pl bytes HP Him Hfit (Hfew eq_refl) E) as (d0 & a0 & d1 & a1 & bd0 & ba0 & bd1 & ba1 & Ht).
      exists (tables_of d0 a0 d1 a1). split; [|split; [|split; [|discriminate]]].
      2:{ exact (opt_proper s Hs O op F Hop im pl Him (Hfew eq_refl) _ _ _ _ _ _ _ _ Ht). }
      2:{ intros _ d Hd. exact (exact_tables s Hs O op F T Hop HF im pl Him (Hfew eq_refl) _ _ _ _ _ _ _ _ Ht d Hd). }
      assert (D : dc_written s F P im pl d0 d1 bd0 bd1).
      { destruct (dbg P) eqn:Hd.
        - destruct (covered_dec T s color pl w h) as [C|C]; unfold color, w, h in C;
            rewrite <- (covered_iff s Hs O op F T Hop HF im pl Him) in C.
          + exact (covered_written s F P im pl _ _ _ _ _ _ _ _ Ht C).
          + exfalso. destruct (debug_panics s Hs O op F T Hop HF im pl Him (Hfew eq_refl) P HP Hfit Hd _ _ _ _ _ _ _ _ Ht C) as (b & X).
            rewrite X in E. discriminate E.
        - exact (release_written s Hs O op F Hop im pl Him (Hfew eq_refl) P _ _ _ _ _ _ _ _ Hd Ht). }
      pose proof (opt_bytes_written s Hs O op F T Hop HF P im pl _ _ _ _ _ _ _ _ HP Him Hfit Ht D) as W.
      unfold emits in W. rewrite W in E. injection E as <-. reflexivity.
    - exists annexK_tables. split; [|split; [apply annexK_proper|split; [discriminate|reflexivity]]].
      pose proof (std_bytes_with P HP s Hs O op F T im pl Hop HF Him Hfit) as W.
      unfold emits in W. rewrite W in E. injection E as <-. reflexivity.
  Qed.
End Written.

(** Without restarts the counted categories are those that are written. *)
Lemma single_length f ci c : length (single_mcus f ci c) = (Z.to_nat (blocks_wide f c) * Z.to_nat (blocks_high f c))%nat.
Proof.
  unfold single_mcus. assert (U : forall n, length (upto n) = Z.to_nat n) by (intros n; unfold upto; now rewrite map_length, seq_length).
  rewrite <- (U (blocks_high f c)). induction (upto (blocks_high f c)) as [|y l IH]; [cbn; lia|]. cbn [flat_map length].
  etransitivity; [apply app_length|]. etransitivity; [apply f_equal2; [etransitivity; [apply map_length|apply U]|exact IH]|]. lia.
Qed.
Lemma counted_written T s color pl w h ci c : let f := frame_for s color w h in let cf := coefficients_of T s color pl w h in
  1 <= w -> 1 <= h -> no_restarts s color w h -> nth_error (fr_comps f) ci = Some c ->
  written_categories cf f (s_restart s) ci = counted_categories cf f ci.
Proof.
  intros f cf Hw Hh Hno Hc. unfold written_categories, counted_categories.
  assert (E : mcus_of f (component_scan ci) = single_mcus f ci c) by (unfold mcus_of, component_scan; cbn [si_comps flat_map app]; rewrite Hc; reflexivity).
  assert (B : 0 <= blocks_wide f c /\ 0 <= blocks_high f c).
  { assert (Hf : Forall (fun c => 0 < co_h c /\ 0 < co_v c) (fr_comps f)).
    { unfold f, frame_for. cbn [fr_comps]. unfold comps_of. destruct (s_sampling s), color; cbn; repeat (constructor; [cbn; lia|]); constructor. }
    rewrite Forall_forall in Hf. destruct (Hf c (nth_error_In _ _ Hc)) as [H1 H2].
    split; [unfold blocks_wide, comp_width|unfold blocks_high, comp_height]; (apply cdiv_nonneg; [apply cdiv_nonneg; [|first [apply PParts.hmax_pos|apply PParts.vmax_pos]]|lia]);
      [change (fr_width f) with w|change (fr_height f) with h]; nia. }
  rewrite E. destruct (single_mcus f ci c) as [|m l] eqn:El.
  - unfold intervals. destruct (s_restart s =? 0); reflexivity.
  - rewrite <- El. rewrite intervals_one; [cbn [flat_map]; now rewrite app_nil_r|rewrite El; discriminate|].
    destruct Hno as [R|R]; [left; exact R|right]. rewrite Forall_forall in R. specialize (R c (nth_error_In _ _ Hc)). cbv zeta in R. fold f in R.
    rewrite single_length, Nat2Z.inj_mul, !Z2Nat.id by tauto. exact R.
Qed.
Lemma counted_occurs T s color pl w h d v : let f := frame_for s color w h in let cf := coefficients_of T s color pl w h in
  1 <= w -> 1 <= h -> no_restarts s color w h -> (dc_counted cf f d v <-> dc_occurs cf f (s_restart s) d v).
Proof.
  intros f cf Hw Hh Hno. unfold dc_counted, dc_occurs. split; intros (ci & c & Hc & Eq & Hv); exists ci, c; (split; [exact Hc|split; [exact Eq|]]);
    pose proof (counted_written T s color pl w h ci c Hw Hh Hno Hc) as E; fold f cf in E; [rewrite E|rewrite <- E]; exact Hv.
Qed.

(** How many symbols there can be *)
Lemma proper_sizes t f d : proper t f -> In d (destinations f) -> (length (snd (tb_dc t d)) <= 12 /\ length (snd (tb_ac t d)) <= 162)%nat.
Proof.
  intros Hp Hd. destruct (Hp d Hd) as (N1 & N2 & S1 & S2). rewrite Forall_forall in S1, S2. split.
  - change 12%nat with (length (zrange 12)). apply NoDup_incl_length; [exact N1|]. intros v Hv. apply in_zrange. specialize (S1 v Hv). unfold dc_symbol in S1. lia.
  - set (all := 0 :: 240 :: flat_map (fun r => map (fun c => 16 * r + (c + 1)) (zrange 10)) (zrange 16)).
    change 162%nat with (length all). apply NoDup_incl_length; [exact N2|]. intros v Hv. destruct (S2 v Hv) as [->|[->|(r & c & Hr & Hc & ->)]].
    + left. reflexivity.
    + right. left. reflexivity.
    + right. right. apply in_flat_map. exists r. split; [apply in_zrange; lia|]. apply in_map_iff. exists (c - 1). split; [lia|apply in_zrange; lia].
Qed.
