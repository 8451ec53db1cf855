(** Optimized DC tables hold codes for the counted categories only; which tables a successful call writes. *)
From Verif Require Import T81 SFile SEncode SSize SHuff SRestart PRest PParse PBytes PSegments PCode PDecide SDecide ThmScan ThmRound ThmHuff ThmBytes.
From Coq Require Import ZArith List Bool Lia.
Import ListNotations.
Open Scope Z_scope.

Lemma values_in_table h tb v : valid_tab h tb -> In v (h_values h) -> exists w, In (w, v) tb /\ w <> [].
Proof.
  intros V Hv. pose proof (vt_build _ _ V) as B. destruct (build_table_inv _ _ _ B) as (_ & Hn & _ & Hl & E).
  assert (S : In v (map snd tb)) by (rewrite E; rewrite combine_snd_len by (now rewrite map_length); exact Hv).
  apply in_map_iff in S as ([w v'] & Ev & Hin). cbn [snd] in Ev. subst v'. exists w. split; [exact Hin|].
  destruct (table_words _ _ _ _ _ B Hin) as (l & y & -> & Hl1 & _). destruct l; [lia|]. intros X.
  apply (f_equal (@length bool)) in X. rewrite PBits.bits_of_length in X. discriminate X.
Qed.
Lemma not_missing h tb v : valid_tab h tb -> In v (h_values h) -> ~ missing h tb v.
Proof.
  intros V Hv (_ & _ & Hc). destruct (values_in_table h tb v V Hv) as (w & Hin & Hw).
  rewrite (find_unique tb w v (valid_tab_uniq _ _ V) Hin) in Hc. contradiction.
Qed.

Section Count.
  Variable s : settings.
  Variable Hs : settings_wf s.
  Variable Hopt : s_optimize s = true.
  Variable op : operations.
  Variable F : list Z -> list Z.
  Variable T : transform.
  Variable Hop : op_ok op F.
  Variable HF : transform_is F T.
  Variable im : image.
  Variable pl : planes.
  Variable Him : image_ok im pl.
  Let color := im_color im.
  Let w := im_width im.
  Let h := im_height im.
  Let f := frame_for s color w h.
  Let cf := coefficients_of T s color pl w h.
  Variable Hfew : countable s color w h.
  Variables (d0 a0 d1 a1 : htab) (bd0 ba0 bd1 ba1 : table).
  Variable Ht : opt_tables reference im pl F (enc_of s) (s_luma s) (s_chroma s) d0 a0 d1 a1 bd0 ba0 bd1 ba1.
  Let t := tables_of d0 a0 d1 a1.

  Lemma only_counted ci c k : nth_error (fr_comps f) ci = Some c -> In k (snd (tb_dc t (co_tq c))) ->
    exists cj c', nth_error (fr_comps f) cj = Some c' /\ co_tq c' = co_tq c /\ In k (counted_categories cf f cj).
  Proof.
    intros Hc Hk. destruct (comp_back s im ci c Hc) as (c0 & Hi & ->).
    pose proof Ht as (_ & V0 & _ & V1 & _).
    assert (V : valid_tab (sel2 d0 d1 (c_qt c0)) (sel2 bd0 bd1 (c_qt c0))) by (unfold sel2; destruct (c_qt c0 =? 0); assumption).
    assert (Hk' : In k (h_values (sel2 d0 d1 (c_qt c0)))).
    { cbn [t tables_of tb_dc comp_of co_tq] in Hk. unfold sel2. destruct (c_qt c0 =? 0); exact Hk. }
    pose proof (vt_vals _ _ V) as Hr. unfold bytes_ok in Hr. rewrite Forall_forall in Hr. specialize (Hr k Hk').
    destruct (counted_dec s Hopt F im pl c0 k) as [H|H].
    2:{ exfalso. apply (not_missing _ _ k V Hk').
        exact (not_counted s Hs Hopt op F Hop im pl Him Hfew _ _ _ _ _ _ _ _ ci c0 k Ht Hi Hr H). }
    destruct H as (j & c' & Hj & Eq & Hv).
    destruct (in_enum_at s F im pl j c' Hj) as [Hj' _]. exists (Z.to_nat j), (comp_of c').
    split; [exact (comp_at s im _ c' Hj')|]. split; [exact Eq|].
    unfold f, cf, color, w, h. rewrite (counted_eq s Hs Hopt op F T Hop HF im pl Him _ c' Hj').
    rewrite Z2Nat.id; [exact Hv|]. apply in_enum in Hj. lia.
  Qed.

  Lemma opt_storable : storable_tables t.
  Proof.
    intros d. destruct Ht as (_ & V0 & V1 & V2 & V3 & _). unfold t. cbn [tables_of tb_dc tb_ac].
    assert (G : forall x b, valid_tab x b -> storable (huff_of x)).
    { intros x b V. split; [exists b; exact (vt_build _ _ V)|exact (vt_vals _ _ V)]. }
    destruct (d =? 0); split; eapply G; eassumption.
  Qed.
End Count.

(** ** Facts about settings *)
Lemma apps_wf s color : settings_wf s -> apps_ok (apps_for s color).
Proof.
  intros Hs. constructor; [destruct (s_density s); cbn; lia|]. apply Forall_app. split.
  - destruct color; try constructor; try constructor; cbn; lia.
  - apply Forall_forall. intros a Ha. pose proof (sw_segs _ Hs) as H. rewrite Forall_forall in H.
    destruct (H a Ha) as (H1 & H2 & _). unfold zlen in H2. lia.
Qed.
Lemma annexK_storable : storable_tables annexK_tables.
Proof.
  assert (G : forall h, (exists tb, build_table (fst h) (snd h) = Some tb) ->
    forallb (fun v => (0 <=? v) && (v <? 256)) (snd h) = true -> storable h).
  { intros h H1 H2. split; [exact H1|]. apply Forall_forall. intros v Hv. rewrite forallb_forall in H2. specialize (H2 v Hv). lia. }
  intros d. unfold annexK_tables. cbn [tb_dc tb_ac]. destruct (d =? 0); split; (apply G; [eexists; vm_compute; reflexivity|vm_compute; reflexivity]).
Qed.
Lemma comps_some s color w h : exists c, nth_error (fr_comps (frame_for s color w h)) 0 = Some c.
Proof. cbn [frame_for fr_comps]. unfold comps_of. destruct (factors (s_sampling s)). destruct color; eexists; reflexivity. Qed.
Lemma in_single_scans n b si : In si (single_scans n b) ->
  exists ci, si_comps si = [ci] /\ (ci < n)%nat /\ si_ss si = fst b /\ si_se si = snd b.
Proof. intros H. unfold single_scans in H. apply in_map_iff in H as (i & <- & H). apply in_seq in H. exists i. cbn. repeat split; lia. Qed.
Lemma single_scans_in n b ci : (ci < n)%nat -> exists si, In si (single_scans n b) /\ si_comps si = [ci] /\ si_ss si = fst b /\ si_se si = snd b.
Proof. intros H. eexists. split; [unfold single_scans; apply in_map_iff; exists ci; split; [reflexivity|apply in_seq; lia]|]. cbn. auto. Qed.
Lemma script_singles s color : s_optimize s = true \/ s_scans s <> None -> singles s color (scan_script s color).
Proof.
  intros H. apply Forall_forall. intros si Hsi.
  assert (X : exists b, In si (single_scans (length (comps_of (s_sampling s) color)) b)).
  { unfold scan_script in Hsi. destruct (factors (s_sampling s)) as [hh vv]. destruct (s_scans s) as [n|].
    - apply in_app_or in Hsi as [Hsi|Hsi]; [eauto|]. apply in_flat_map in Hsi as (b & _ & Hsi). eauto.
    - destruct H as [H|H]; [|contradiction]. rewrite H in Hsi. cbn [negb andb] in Hsi. eauto. }
  destruct X as (b & X). apply in_single_scans in X as (ci & E & L & _). 
  destruct (nth_error (comps_of (s_sampling s) color) ci) as [c|] eqn:En; [eauto|].
  apply nth_error_None in En. lia.
Qed.
Lemma script_dc s color : s_optimize s = true \/ s_scans s <> None -> forall ci, (ci < length (comps_of (s_sampling s) color))%nat ->
  exists si, In si (scan_script s color) /\ si_comps si = [ci] /\ si_ss si = 0.
Proof.
  intros H ci Hci. unfold scan_script. destruct (factors (s_sampling s)) as [hh vv]. destruct (s_scans s) as [n|].
  - destruct (single_scans_in _ (0, 0) ci Hci) as (si & Hi & E & E0 & _). exists si. split; [apply in_or_app; now left|auto].
  - destruct H as [H|H]; [|contradiction]. rewrite H. cbn [negb andb].
    destruct (single_scans_in _ (0, 63) ci Hci) as (si & Hi & E & E0 & _). exists si. auto.
Qed.

(** [restart_covered] is decidable. *)
Lemma decide_all {X} (A : X -> Prop) : forall l, (forall x, In x l -> A x \/ ~ A x) -> (forall x, In x l -> A x) \/ exists x, In x l /\ ~ A x.
Proof.
  intros l H. destruct (all_or_some A (fun x => ~ A x) l H) as [F|E].
  - left. now apply Forall_forall.
  - right. now apply Exists_exists.
Qed.
Lemma decide_index {X} (Q : nat -> X -> Prop) l : (forall i x, nth_error l i = Some x -> Q i x \/ ~ Q i x) ->
  (forall i x, nth_error l i = Some x -> Q i x) \/ exists i x, nth_error l i = Some x /\ ~ Q i x.
Proof.
  intros H. destruct (decide_all (fun i => forall x, nth_error l i = Some x -> Q i x) (seq 0 (length l))) as [A|(i & _ & N)].
  - intros i _. destruct (nth_error l i) as [x|] eqn:E; [|left; discriminate].
    destruct (H i x E) as [Y|Y]; [left; now intros ? [= <-]|right; intros Z; exact (Y (Z x eq_refl))].
  - left. intros i x E. apply A; [|exact E]. apply in_seq. apply PDecide.nth_error_lt in E. lia.
  - right. destruct (nth_error l i) as [x|] eqn:E; [|exfalso; apply N; discriminate].
    exists i, x. split; [exact E|]. intros Y. apply N. now intros ? [= <-].
Qed.
Lemma covered_dec T s color pl w h : restart_covered T s color pl w h \/ ~ restart_covered T s color pl w h.
Proof.
  unfold restart_covered. set (f := frame_for s color w h). set (cf := coefficients_of T s color pl w h). clearbody f cf.
  destruct (decide_index (fun ci c => forall k, In k (written_categories cf f (s_restart s) ci) ->
    exists cj c', nth_error (fr_comps f) cj = Some c' /\ co_tq c' = co_tq c /\ In k (counted_categories cf f cj)) (fr_comps f)) as [A|(i & x & E & N)].
  - intros ci c _.
    destruct (decide_all (fun k => exists cj c', nth_error (fr_comps f) cj = Some c' /\ co_tq c' = co_tq c /\ In k (counted_categories cf f cj))
      (written_categories cf f (s_restart s) ci)) as [B|(k & Hk & N)].
    + intros k _.
      destruct (decide_index (fun cj c' => ~ (co_tq c' = co_tq c /\ In k (counted_categories cf f cj))) (fr_comps f)) as [B|(j & c' & Ej & N)].
      * intros j c' _. destruct (Z.eq_dec (co_tq c') (co_tq c)) as [E1|E1], (in_dec Z.eq_dec k (counted_categories cf f j)) as [E2|E2]; tauto.
      * right. intros (j & c' & Ej & E). exact (B j c' Ej E).
      * left. exists j, c'. split; [exact Ej|].
        destruct (Z.eq_dec (co_tq c') (co_tq c)) as [E1|E1], (in_dec Z.eq_dec k (counted_categories cf f j)) as [E2|E2]; tauto.
    + left. exact B.
    + right. intros H. exact (N (H k Hk)).
  - left. intros ci c k Hc. exact (A ci c Hc k).
  - right. intros H. apply N. intros k. exact (H i x k E).
Qed.

(** ** What a successful call has written *)
Definition counted_tables (T : transform) (t : tables) (s : settings) (color : jcolor) (pl : planes) (w h : Z) : Prop :=
  let f := frame_for s color w h in
  forall ci c k, nth_error (fr_comps f) ci = Some c -> In k (snd (tb_dc t (co_tq c))) ->
    exists cj c', nth_error (fr_comps f) cj = Some c' /\ co_tq c' = co_tq c /\
      In k (counted_categories (coefficients_of T s color pl w h) f cj).

Definition byte_tables (t : tables) : Prop := forall d,
  Forall is_u8 (fst (tb_dc t d)) /\ Forall is_u8 (snd (tb_dc t d)) /\ Forall is_u8 (fst (tb_ac t d)) /\ Forall is_u8 (snd (tb_ac t d)).
Lemma annexK_bytes : byte_tables annexK_tables.
Proof.
  assert (G : forall l, forallb (fun v => (0 <=? v) && (v <? 256)) l = true -> Forall is_u8 l).
  { intros l H. apply Forall_forall. intros v Hv. rewrite forallb_forall in H. specialize (H v Hv). unfold is_u8. lia. }
  intros d. unfold annexK_tables. cbn [tb_dc tb_ac]. destruct (d =? 0); repeat split; apply G; vm_compute; reflexivity.
Qed.
Lemma opt_byte_tables P im pl F e q0 q1 d0 a0 d1 a1 bd0 ba0 bd1 ba1 :
  opt_tables P im pl F e q0 q1 d0 a0 d1 a1 bd0 ba0 bd1 ba1 -> byte_tables (tables_of d0 a0 d1 a1).
Proof.
  intros (_ & V0 & V1 & V2 & V3 & _) d. cbn [tables_of tb_dc tb_ac].
  destruct (d =? 0); repeat split; (eapply vt_lens; eassumption) || (eapply vt_vals; eassumption).
Qed.

Section Written.
  Variable s : settings.
  Variable Hs : settings_wf s.
  Variable op : operations.
  Variable F : list Z -> list Z.
  Variable T : transform.
  Variable Hop : op_ok op F.
  Variable HF : transform_is F T.
  Variable P : platform.
  Variable HP : plat_ok P.
  Variable im : image.
  Variable pl : planes.
  Variable Him : image_ok im pl.
  Variable Hfit : im_width im * im_height im < 2 ^ (ubits P - 1).
  Let color := im_color im.
  Let w := im_width im.
  Let h := im_height im.
  Variable Hfew : s_optimize s = true -> countable s color w h.

  Lemma written_tables bytes : exec (encode_image_internal P op (enc_of s) im) = (bytes, Ok tt) ->
    exists t, storable_tables t /\ bytes = jpeg_file_with T t s color pl w h /\
      (s_optimize s = true -> counted_tables T t s color pl w h) /\ byte_tables t.
  Proof.
    intros E. destruct (s_optimize s) eqn:O.
    - destruct (opt_tables_done s Hs O op F Hop P im pl bytes HP Him Hfit (Hfew eq_refl) E) as (d0 & a0 & d1 & a1 & bd0 & ba0 & bd1 & ba1 & Ht).
      exists (tables_of d0 a0 d1 a1). split; [exact (opt_storable _ _ _ _ _ _ _ _ _ _ _ _ Ht)|].
      split; [|split; [|exact (opt_byte_tables _ _ _ _ _ _ _ _ _ _ _ _ _ _ _ Ht)]; intros _ ci c k; exact (only_counted s Hs O op F T Hop HF im pl Him (Hfew eq_refl) _ _ _ _ _ _ _ _ Ht ci c k)].
      assert (D : dc_written s F P im pl d0 d1 bd0 bd1).
      { destruct (dbg P) eqn:Hd.
        - destruct (covered_dec T s color pl w h) as [C|C]; unfold color, w, h in C;
            rewrite <- (covered_iff s Hs O op F T Hop HF im pl Him) in C.
          + exact (covered_written s F P im pl _ _ _ _ _ _ _ _ Ht C).
          + exfalso. destruct (debug_panics s Hs O op F T Hop HF im pl Him (Hfew eq_refl) P HP Hfit Hd _ _ _ _ _ _ _ _ Ht C) as (b & X).
            rewrite X in E. discriminate E.
        - exact (release_written s Hs O op F Hop im pl Him (Hfew eq_refl) P _ _ _ _ _ _ _ _ Hd Ht). }
      pose proof (opt_bytes_written s Hs O op F T Hop HF P im pl _ _ _ _ _ _ _ _ HP Him Hfit Ht D) as W.
      unfold emits in W. rewrite W in E. injection E as <-. reflexivity.
    - exists annexK_tables. split; [exact annexK_storable|]. split; [|split; [discriminate|exact annexK_bytes]].
      pose proof (std_bytes_with P HP s Hs O op F T im pl Hop HF Him Hfit) as W.
      unfold emits in W. rewrite W in E. injection E as <-. reflexivity.
  Qed.

  Lemma dims : 1 <= w <= 65535 /\ 1 <= h <= 65535.
  Proof. split; apply Him. Qed.

  (** *** Only representable images come back *)
  Lemma many_scans t n : storable_tables t -> s_scans s = Some n -> 34 <= n -> decode (jpeg_file_with T t s color pl w h) = None.
  Proof.
    intros Ht En Hn. destruct (decode (jpeg_file_with T t s color pl w h)) as [j|] eqn:D; [|reflexivity]. exfalso.
    pose proof (sw_scans _ Hs) as Hn2. rewrite En in Hn2.
    destruct dims as [Hw Hh].
    destruct (comps_some s color w h) as (c & Hc). apply PDecide.nth_error_lt in Hc. cbn [frame_for fr_comps] in Hc.
    destruct (single_scans_in (length (comps_of (s_sampling s) color)) (1, 0) 0 Hc) as (si & Hi & _ & E0 & E1).
    assert (Hsi : In si (scan_script s color)).
    { unfold scan_script. destruct (factors (s_sampling s)). rewrite En. apply in_or_app. right. apply in_flat_map. exists (1, 0).
      split; [|exact Hi]. rewrite <- (C28_headers n ltac:(lia)). pose proof (C28_headers n ltac:(lia)) as X.
      destruct (spectral_bands n); [discriminate X|left; reflexivity]. }
    destruct (decoded_singles T t s color pl w h Hw Hh Ht (apps_wf s color Hs) (sw_restart _ Hs) (script_singles s color ltac:(right; congruence)) j D si Hsi)
      as [X _].
    rewrite E0, E1 in X. cbn [fst snd] in X. unfold spectral_ok in X. destruct (fr_progressive _); discriminate X.
  Qed.

  Lemma came_back bytes j : exec (encode_image_internal P op (enc_of s) im) = (bytes, Ok tt) ->
    decode bytes = Some j -> decoded_with T s color w h pl j -> representable T s color pl w h.
  Proof.
    intros E D A. destruct (written_tables bytes E) as (t & Ht & -> & Hc & _). destruct dims as [Hw Hh].
    split; [|split].
    - split.
      + exact (decoded_quantizers T t s color pl w h Hw Hh Ht (apps_wf s color Hs) (sw_restart _ Hs) j D A).
      + intros i Hi. destruct (decoded_qt T t s color pl w h Hw Hh Ht (apps_wf s color Hs) (sw_restart _ Hs) j D) as (Q & _).
        unfold quant_ok in Q. apply andb_prop in Q as [_ Q]. rewrite forallb_forall in Q.
        destruct (zigzag_all i Hi) as (v & u & Hvu & <-).
        specialize (Q (quantizer s 1 (Z.of_nat (8 * v + u)) mod 256)).
        assert (X : 0 <? quantizer s 1 (Z.of_nat (8 * v + u)) mod 256 = true); [|lia].
        apply Q. unfold stored. apply in_map_iff. exists (v, u). split; [reflexivity|exact Hvu].
    - unfold scans_fit. destruct (s_scans s) as [n|] eqn:En; [|exact I].
      destruct (Z_le_gt_dec n 33) as [L|L]; [exact L|]. rewrite (many_scans t n Ht En ltac:(lia)) in D. discriminate D.
    - intros O ci c k Hci Hk. apply (Hc O ci c k Hci).
      exact (decoded_categories T t s color pl w h Hw Hh Ht (apps_wf s color Hs) (sw_restart _ Hs)
        (script_singles s color (or_introl O)) j D A (script_dc s color (or_introl O)) ci c k Hci Hk).
  Qed.
End Written.

(** *** Representable images come back *)
Section Represent.
  Variable op : operations.
  Variable F : list Z -> list Z.
  Variable T : transform.
  Variable Hop : op_ok op F.
  Variable HF : transform_is F T.
  Variable P : platform.
  Variable HP : plat_ok P.
  Variable im : image.
  Variable pl : planes.
  Variable Him : image_ok im pl.
  Variable Hfit : im_width im * im_height im < 2 ^ (ubits P - 1).
  Let color := im_color im.
  Let w := im_width im.
  Let h := im_height im.

  Definition comes_back (s : settings) (bytes : list Z) : Prop :=
    emits (encode_image_internal P op (enc_of s) im) bytes tt /\ bytes_ok bytes /\
    exists j, decode bytes = Some j /\ decoded_with T s color w h pl j.

  Lemma back_8bit s : settings_wf s -> table_8bit (s_luma s) -> table_8bit (s_chroma s) -> scans_fit s ->
    (s_optimize s = true -> countable s color w h /\ has_tables s F im pl) -> (s_optimize s = true -> restart_covered T s color pl w h) ->
    exists bytes, comes_back s bytes.
  Proof.
    intros Hs H80 H81 Hsc Hfew Hcov. destruct (s_optimize s) eqn:O.
    - specialize (Hfew eq_refl). specialize (Hcov eq_refl).
      apply (covered_iff s Hs O op F T Hop HF im pl Him) in Hcov.
      pose proof H80 as H80'. pose proof H81 as H81'. rewrite table_8bit_eq in H80', H81'.
      destruct Hfew as [Hcount (d0 & a0 & d1 & a1 & bd0 & ba0 & bd1 & ba1 & Ht)].
      destruct (opt_decodes_intro P HP im pl Him op F Hop (enc_of s) (s_luma s) (s_chroma s) (enc_of_ok s Hs) O)
        as (bytes & j & E & Hb & Hd & H1 & H2 & H3 & H4 & H5 & H6).
      { rewrite frame_for_eq. exact Hcount. }
      { exact Hfit. } { exact H80'. } { exact H81'. } { exact Hsc. }
      { exact Hcov. }
      { exists d0, a0, d1, a1, bd0, ba0, bd1, ba1. exact (opt_tables_any s Hs F P HP im pl _ _ _ _ _ _ _ _ Ht). }
      exists bytes. split; [exact E|]. split; [exact Hb|]. exists j. split; [exact Hd|].
      exact (decoded_intro s Hs im pl F T HF H80 H81 j H1 H2 H3 H4 H5 H6).
    - destruct (std_image_with P HP s Hs H80 H81 O Hsc op F T im pl Hop HF Him Hfit) as (bytes & j & E & B & D & A).
      exists bytes. split; [exact E|]. split; [exact B|]. exists j. split; [exact D|exact A].
  Qed.

  Lemma set_chroma_wf s q : settings_wf s -> qtype_wf q -> settings_wf (set_chroma s q).
  Proof. intros [A B C D E G] Hq. constructor; assumption. Qed.

  Lemma grey_opt_tables s q d0 a0 d1 a1 bd0 ba0 bd1 ba1 : color = JLuma ->
    opt_tables reference im pl F (enc_of s) (s_luma s) (s_chroma s) d0 a0 d1 a1 bd0 ba0 bd1 ba1 ->
    opt_tables reference im pl F (enc_of (set_chroma s q)) (s_luma s) q d0 a0 d1 a1 bd0 ba0 bd1 ba1.
  Proof.
    unfold color, opt_tables. intros Ec H. destruct H as (H1 & V0 & V1 & V2 & V3 & H2).
    split; [|split; [exact V0|split; [exact V1|split; [exact V2|split; [exact V3|]]]]].
    - revert H1. rewrite Ec. intros H1. exact H1.
    - revert H2. rewrite Ec. intros H2 i c Hic. specialize (H2 i c Hic).
      assert (Ei : i = 0).
      { destruct Hic as [E|[]]. exact (f_equal fst (eq_sym E)). }
      subst i. exact H2.
  Qed.

  Lemma grey_has s q : color = JLuma -> has_tables s F im pl -> has_tables (set_chroma s q) F im pl.
  Proof.
    intros Ec (d0 & a0 & d1 & a1 & bd0 & ba0 & bd1 & ba1 & Ht). exists d0, a0, d1, a1, bd0, ba0, bd1, ba1.
    exact (grey_opt_tables s q _ _ _ _ _ _ _ _ Ec Ht).
  Qed.
  Lemma grey_covered s q : color = JLuma -> restart_covered T s color pl w h -> restart_covered T (set_chroma s q) color pl w h.
  Proof.
    intros Ec H ci c k Hc Hk. rewrite Ec in *.
    assert (Ev : forall us, dc_values (coefficients_of T (set_chroma s q) JLuma pl w h) us = dc_values (coefficients_of T s JLuma pl w h) us).
    { intros us. unfold dc_values. apply map_ext. intros [[i y] x]. apply grey_cf. }
    destruct (H ci c k Hc) as (cj & c' & Hj & Eq & Hin).
    - unfold written_categories in *. apply in_flat_map in Hk as (m & Hm & Hk). apply in_flat_map. exists m. split; [exact Hm|].
      rewrite Ev in Hk. exact Hk.
    - exists cj, c'. split; [exact Hj|]. split; [exact Eq|]. unfold counted_categories in *. rewrite Ev. exact Hin.
  Qed.

  (** The file with the tables of this image, for both second quantization tables. *)
  Lemma grey_file s q bytes' : settings_wf s -> qtype_wf q -> color = JLuma -> (s_optimize s = true -> has_tables s F im pl) ->
    (s_optimize s = true -> restart_covered T s color pl w h) ->
    emits (encode_image_internal P op (enc_of (set_chroma s q)) im) bytes' tt ->
    exists t, storable_tables t /\ bytes' = jpeg_file_with T t (set_chroma s q) color pl w h /\
      emits (encode_image_internal P op (enc_of s) im) (jpeg_file_with T t s color pl w h) tt.
  Proof.
    intros Hs Hq Ec Hfew Hcov E. pose proof (set_chroma_wf s q Hs Hq) as Hs'. destruct (s_optimize s) eqn:O.
    - specialize (Hfew eq_refl). specialize (Hcov eq_refl).
      destruct Hfew as (d0 & a0 & d1 & a1 & bd0 & ba0 & bd1 & ba1 & Ht).
      pose proof (grey_opt_tables s q _ _ _ _ _ _ _ _ Ec Ht) as Ht'.
      exists (tables_of d0 a0 d1 a1). split; [exact (opt_storable _ _ _ _ _ _ _ _ _ _ _ _ Ht)|].
      pose proof (grey_covered s q Ec Hcov) as Hcov'.
      apply (covered_iff s Hs O op F T Hop HF im pl Him) in Hcov.
      apply (covered_iff (set_chroma s q) Hs' O op F T Hop HF im pl Him) in Hcov'.
      split.
      + pose proof (opt_bytes_written _ Hs' O op F T Hop HF P im pl _ _ _ _ _ _ _ _ HP Him Hfit Ht'
          (covered_written _ F P im pl _ _ _ _ _ _ _ _ Ht' Hcov')) as W.
        unfold emits in W, E. rewrite W in E. injection E as <-. reflexivity.
      + exact (opt_bytes_written _ Hs O op F T Hop HF P im pl _ _ _ _ _ _ _ _ HP Him Hfit Ht
          (covered_written _ F P im pl _ _ _ _ _ _ _ _ Ht Hcov)).
    - exists annexK_tables. split; [exact annexK_storable|]. split.
      + pose proof (std_bytes_with P HP _ Hs' O op F T im pl Hop HF Him Hfit) as W.
        unfold emits in W, E. rewrite W in E. injection E as <-. reflexivity.
      + exact (std_bytes_with P HP s Hs O op F T im pl Hop HF Him Hfit).
  Qed.

  Lemma fits_8bit t quality luma : qtype_wf t -> (forall i, 0 <= i < 64 -> quantizer_of t quality luma i <= 255) -> table_8bit t.
  Proof.
    intros Hq H. destruct t; try exact I. cbn [table_8bit]. apply Forall_forall. intros v Hv. apply (In_nth _ _ 0) in Hv as (n & Hn & <-).
    destruct Hq as [L _]. specialize (H (Z.of_nat n) ltac:(lia)). unfold quantizer_of in H. rewrite Nat2Z.id in H. cbn [preset] in H. lia.
  Qed.

  Lemma zigzag_range y x : In (y, x) zigzag -> 0 <= Z.of_nat (8 * y + x) < 64.
  Proof.
    intros H. assert (G : forallb (fun '(y, x) => (Z.of_nat (8 * y + x) <? 64)) zigzag = true) by (vm_compute; reflexivity).
    rewrite forallb_forall in G. specialize (G (y, x) H). cbv beta iota in G. lia.
  Qed.
  Lemma quantizer_pos s d i : settings_wf s -> 0 <= i < 64 -> 1 <= quantizer s d i.
  Proof.
    intros Hs Hi. unfold quantizer, quantizer_of, scaled. destruct (d =? 0); [destruct (s_luma s)|destruct (s_chroma s)]; try lia;
      apply Z.le_max_l.
  Qed.
  Lemma decode_bytes_ok bytes j : decode bytes = Some j -> bytes_ok bytes.
  Proof.
    unfold decode. destruct (forallb is_byte bytes) eqn:E; [|discriminate]. intros _. apply Forall_forall. intros x Hx.
    rewrite forallb_forall in E. specialize (E x Hx). unfold is_byte in E. unfold is_u8. lia.
  Qed.

  Lemma representable_back s : settings_wf s -> (s_optimize s = true -> countable s color w h /\ has_tables s F im pl) ->
    representable T s color pl w h -> exists bytes, comes_back s bytes.
  Proof.
    intros Hs Hfew ((Q1 & Q2) & Hsc & Hcov).
    assert (L : table_8bit (s_luma s)).
    { apply (fits_8bit _ (s_quality s) true (sw_luma _ Hs)). intros i Hi.
      assert (X : exists c, In c (comps_of (s_sampling s) color) /\ co_tq c = 0).
      { unfold comps_of. destruct (factors (s_sampling s)) as [hh vv]. destruct color.
        - eexists. split; [left; reflexivity|reflexivity].
        - eexists. split; [left; reflexivity|reflexivity].
        - eexists. split; [do 3 right; left; reflexivity|reflexivity].
        - eexists. split; [left; reflexivity|reflexivity]. }
      destruct X as (c & Hc & E0). specialize (Q1 c i Hc Hi). rewrite E0 in Q1. exact Q1. }
    assert (X : color = JLuma \/ exists c, In c (comps_of (s_sampling s) color) /\ co_tq c = 1).
    { unfold comps_of. destruct (factors (s_sampling s)) as [hh vv]. destruct color; [now left|right..].
      - eexists. split; [right; left; reflexivity|reflexivity].
      - eexists. split; [right; left; reflexivity|reflexivity].
      - eexists. split; [right; left; reflexivity|reflexivity]. }
    destruct X as [Ec|(c & Hc & E1)].
    - assert (Hq : qtype_wf QDefault) by exact I.
      destruct (back_8bit (set_chroma s QDefault) (set_chroma_wf s QDefault Hs Hq) L I Hsc (fun O => conj (proj1 (Hfew O)) (grey_has s QDefault Ec (proj2 (Hfew O))))) as (bytes' & E' & _ & j' & D' & A').
      { intros O. exact (grey_covered s QDefault Ec (Hcov O)). }
      destruct (grey_file s QDefault bytes' Hs Hq Ec (fun O => proj2 (Hfew O)) Hcov E') as (t & Ht & -> & E).
      exists (jpeg_file_with T t s color pl w h). split; [exact E|].
      assert (Hw : 1 <= w <= 65535) by apply Him. assert (Hh : 1 <= h <= 65535) by apply Him.
      assert (Qok : quant_ok s = true).
      { unfold quant_ok. apply andb_true_intro. split; apply forallb_forall; intros v Hv; apply in_map_iff in Hv as ([y x] & <- & Hin).
        - pose proof (zigzag_range y x Hin) as R. specialize (Q1 {| co_id := 0; co_h := 1; co_v := 1; co_tq := 0 |} (Z.of_nat (8 * y + x))).
          rewrite Ec in Q1. specialize (Q1 ltac:(unfold comps_of; destruct (factors (s_sampling s)); left; reflexivity) R). cbn [co_tq] in Q1.
          pose proof (quantizer_pos s 0 (Z.of_nat (8 * y + x)) Hs R). rewrite Z.mod_small by lia. lia.
        - pose proof (zigzag_range y x Hin) as R. specialize (Q2 _ R).
          pose proof (Z.mod_pos_bound (quantizer s 1 (Z.of_nat (8 * y + x))) 256 ltac:(lia)). lia. }
      destruct (grey_transfer T t s QDefault pl w h Hw Hh Ht) with (j' := j') as (j & D & A).
      { rewrite <- Ec. exact (apps_wf s color Hs). } { exact (sw_restart _ Hs). } { exact Qok. }
      { rewrite <- Ec. exact D'. } { rewrite <- Ec. exact A'. }
      rewrite <- Ec in D, A. split; [|exists j; split; [exact D|exact A]].
      exact (decode_bytes_ok _ _ D).
    - apply back_8bit; try assumption. apply (fits_8bit _ (s_quality s) false (sw_chroma _ Hs)). intros i Hi.
      specialize (Q1 c i Hc Hi). rewrite E1 in Q1. exact Q1.
  Qed.
End Represent.
