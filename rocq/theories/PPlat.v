(** Targets: Huffman table generation does not depend on the pointer width. *)
From Verif Require Import T81 SFile SEncode PSegments PSos PFile PTop PEncode PApi.
From Verif Require Export PRefine PRound PBytesF POpt SHuff.
From Coq Require Import ZifyBool ZifyNat.

Section Tables.
  Variables u1 u2 : Z.
  Variable b : bool.
  Variable Hu1 : u1 = 32 \/ u1 = 64.
  Variable Hu2 : u2 = 32 \/ u2 = 64.
  Notation D := {| dbg := true; ubits := u1 |}.
  Notation R := {| dbg := b; ubits := u2 |}.

  Lemma pf_ck_u n z : rf (ck_u D n z) (ck_u R n z).
  Proof. unfold ck_u. cbn [dbg]. destruct b; destruct (_ && _); try constructor; apply rf_refl. Qed.
  Lemma pf_ck_s n z : rf (ck_s D n z) (ck_s R n z).
  Proof. unfold ck_s. cbn [dbg]. destruct b; destruct (_ && _); try constructor; apply rf_refl. Qed.
  Lemma pf_shl n x s : rf (shl_u D n x s) (shl_u R n x s).
  Proof. unfold shl_u. cbn [dbg]. destruct b; destruct (_ && _); try constructor; apply rf_refl. Qed.
  Lemma pf_shr n x s : rf (shr_u D n x s) (shr_u R n x s).
  Proof. unfold shr_u. cbn [dbg]. destruct b; destruct (_ && _); try constructor; apply rf_refl. Qed.
  Lemma pf_debug_assert x : rf (debug_assert D x) (debug_assert R x).
  Proof. unfold debug_assert. cbn [dbg negb]. rewrite orb_false_r. destruct x, b; cbn; constructor. Qed.
  Hint Resolve pf_ck_u pf_ck_s pf_shl pf_shr pf_debug_assert : rf.

  Lemma pf_codes_loop : forall sizes c s, rf (create_codes_loop D sizes c s) (create_codes_loop R sizes c s).
  Proof. induction sizes; intros; cbn [create_codes_loop]; rf_all. Qed.
  Hint Resolve pf_codes_loop : rf.
  Lemma pf_create_codes s : rf (create_codes D s) (create_codes R s). Proof. unfold create_codes. rf_all. Qed.
  Hint Resolve pf_create_codes : rf.
  Lemma pf_lookup l v : rf (create_lookup_table D l v) (create_lookup_table R l v).
  Proof. unfold create_lookup_table. rf_all. Qed.
  Hint Resolve pf_lookup : rf.
  Lemma pf_huffman_new l v : rf (huffman_new D l v) (huffman_new R l v). Proof. unfold huffman_new. rf_all. Qed.
  Hint Resolve pf_huffman_new : rf.
  Lemma pf_code_sizes n : forall f o c, rf (code_sizes_loop D n f o c) (code_sizes_loop R n f o c).
  Proof. induction n; intros; cbn [code_sizes_loop]; rf_all. Qed.
  Lemma pf_count_sizes c : rf (count_sizes D c) (count_sizes R c). Proof. unfold count_sizes. rf_all. Qed.
  Lemma pf_find_shorter l j : rf (find_shorter D l j) (find_shorter R l j).
  Proof. induction j; cbn [find_shorter]; cbn [dbg]; destruct (_ =? _); try apply rf_panic; rf_all. Qed.
  Hint Resolve pf_code_sizes pf_count_sizes pf_find_shorter : rf.
  Lemma pf_shorten n i : forall l, rf (shorten_level D n i l) (shorten_level R n i l).
  Proof. induction n; intros; cbn [shorten_level]; rf_all. Qed.
  Hint Resolve pf_shorten : rf.
  Lemma pf_limit l : rf (limit_lengths D l) (limit_lengths R l). Proof. unfold limit_lengths. rf_all. Qed.
  Lemma pf_drop l i : rf (drop_reserved D l i) (drop_reserved R l i).
  Proof. induction i; cbn [drop_reserved]; cbn [dbg]; destruct (_ =? _); try apply rf_panic; rf_all. Qed.
  Hint Resolve pf_limit pf_drop : rf.
  Lemma pf_new_optimized f : rf (new_optimized D f) (new_optimized R f). Proof. unfold new_optimized. rf_all. Qed.
  Lemma pf_get_num_bits v : rf (get_num_bits D v) (get_num_bits R v). Proof. unfold get_num_bits. rf_all. Qed.
  Lemma pf_inc_freq f i : rf (inc_freq D f i) (inc_freq R f i). Proof. unfold inc_freq. rf_all. Qed.
  Hint Resolve pf_new_optimized pf_get_num_bits pf_inc_freq : rf.
  Lemma pf_count_dc : forall bs p f, rf (count_dc D bs p f) (count_dc R bs p f).
  Proof. induction bs; intros; cbn [count_dc]; rf_all. Qed.
  Lemma pf_count_zrl n : forall z f, rf (count_zrl D n z f) (count_zrl R n z f).
  Proof. induction n; intros; cbn [count_zrl]; rf_all. Qed.
  Hint Resolve pf_count_dc pf_count_zrl : rf.
  Lemma pf_count_ac_loop : forall vs z f, rf (count_ac_loop D vs z f) (count_ac_loop R vs z f).
  Proof. induction vs; intros; cbn [count_ac_loop]; rf_all. Qed.
  Hint Resolve pf_count_ac_loop : rf.
  Lemma pf_count_ac l s e f : rf (count_ac D l s e f) (count_ac R l s e f). Proof. unfold count_ac. rf_all. Qed.
  Lemma pf_opt_bands s : 2 <= s <= 64 -> rf (opt_bands D s) (opt_bands R s).
  Proof. intros Hs. rewrite !opt_bands_ret by assumption. apply rf_refl. Qed.
  Hint Resolve pf_count_ac pf_opt_bands : rf.
  Lemma pf_optimize_table e cs bs t : match e_prog e with Some n => 2 <= n <= 64 | None => True end ->
    rf (optimize_table D e cs bs t) (optimize_table R e cs bs t).
  Proof. intros Hp. unfold optimize_table. destruct (e_prog e); rf_all. Qed.
  Hint Resolve pf_optimize_table : rf.
  Lemma pf_tables_for e cs bs : match e_prog e with Some n => 2 <= n <= 64 | None => True end ->
    rf (tables_for D e cs bs) (tables_for R e cs bs).
  Proof. intros Hp. unfold tables_for, optimize_huffman_table. rf_all. Qed.
End Tables.

Definition reference : platform := {| dbg := true; ubits := 64 |}.

Lemma uses_table0 sp color : exists i c, In (i, c) (enumerate (init_components sp color)) /\ c_dc c = 0 /\ c_ac c = 0.
Proof.
  unfold init_components. destruct (sampling_factors sp) as [h v].
  destruct color; [exists 0|exists 0|exists 3|exists 0]; eexists; (split; [apply in_enum; split; [lia|reflexivity]|]); split; reflexivity.
Qed.
Lemma uses_table1 sp color : zlen (init_components sp color) <> 1 ->
  exists i c, In (i, c) (enumerate (init_components sp color)) /\ c_dc c = 1 /\ c_ac c = 1.
Proof.
  unfold init_components. destruct (sampling_factors sp) as [h v].
  destruct color; intros L1; [exfalso; apply L1; reflexivity|exists 1|exists 1|exists 1]; eexists;
    (split; [apply in_enum; split; [lia|reflexivity]|]); split; reflexivity.
Qed.

(** The generation of the optimized tables succeeds. *)
Definition has_tables (s : settings) (F : list Z -> list Z) (im : image) (pl : planes) : Prop :=
  exists d0 a0 d1 a1 bd0 ba0 bd1 ba1, opt_tables reference im pl F (enc_of s) (s_luma s) (s_chroma s) d0 a0 d1 a1 bd0 ba0 bd1 ba1.
(** With at most 146,467 data units, or if the call does not panic with an index out of bounds. *)
Definition tables_generated {A} (s : settings) (color : jcolor) (w h : Z) (m : prog A) : Prop :=
  s_optimize s = true -> few_blocks s color w h \/ snd (exec m) <> Panicked PIndex.

Section OptBytes.
  Variable s : settings.
  Variable Hs : settings_wf s.
  Variable Hopt : s_optimize s = true.
  Variable op : operations.
  Variable F : list Z -> list Z.
  Variable T : transform.
  Variable Hop : op_ok op F.
  Variable HF : transform_is F T.
  Let e := enc_of s.
  Let He : enc_ok e (s_luma s) (s_chroma s) := enc_of_ok s Hs.

  Lemma opt_tables_with im pl : image_ok im pl ->
    few_blocks s (im_color im) (im_width im) (im_height im) ->
    exists d0 a0 d1 a1 bd0 ba0 bd1 ba1, opt_tables reference im pl F e (s_luma s) (s_chroma s) d0 a0 d1 a1 bd0 ba0 bd1 ba1.
  Proof.
    intros Him Hfew.
    apply (opt_tables_cases reference (or_intror eq_refl) im pl Him op F Hop e _ _ He); try assumption.
    - unfold e. rewrite frame_for_eq. unfold few_blocks, block_count in Hfew. unfold frame_blocks. clear - Hfew.
      set (b := fold_right _ _ _) in *. clearbody b. lia.
    - unfold e. rewrite frame_for_eq. exact Hfew.
  Qed.

  (** *** Larger images: the tables, or a panic that does not depend on the platform *)
  Lemma exec_bind_same {A B} (m m' : prog A) (f f' : A -> prog B) :
    exec m = exec m' -> (forall a, exec (f a) = exec (f' a)) -> exec (bind m f) = exec (bind m' f').
  Proof. intros H Hf. rewrite !exec_bind, H. destruct (exec m') as [o [a|x|k]]; try reflexivity. rewrite Hf. reflexivity. Qed.
  Lemma new_same P (HP : plat_ok P) l : Forall small l -> l <> [] -> 1 + Z.of_nat (length l) < 4294967296 ->
    exec (new_optimized P (tally init_freq l)) = exec (new_optimized reference (tally init_freq l)).
  Proof.
    intros Hs0 Hn Hl. destruct init_hok as (I1 & I2 & I3 & I4). pose proof (small_sym l Hs0) as Hy.
    destruct (tally_ok l init_freq I1 Hy) as [T1 T2]. pose proof (tally_reserved l init_freq I1 Hy) as T3.
    assert (Hu : forall v, In v (used (tally init_freq l)) <-> In v l).
    { intros v. unfold used. rewrite filter_In, in_zrange. split.
      - intros [Hv Hp]. destruct (tally_pos l init_freq (Z.to_nat v) I1 Hy) as [H|H].
        + unfold zn in Hp. lia.
        + rewrite I4 in H by lia. lia.
        + now rewrite Z2Nat.id in H by lia.
      - intros Hi. pose proof (tally_in l init_freq v I1 Hy Hi). rewrite Forall_forall in Hy. pose proof (Hy v Hi) as Hv. unfold sym in Hv. lia. }
    assert (H1 : fold_right Z.add 0 (tally init_freq l) < 4294967296) by (fold (tot (tally init_freq l)); lia).
    assert (H2 : 0 < nth 256 (tally init_freq l) 0) by (rewrite T3, I3; lia).
    assert (H3 : (1 <= length (used (tally init_freq l)) <= 254)%nat).
    { split.
      + destruct l as [|v l']; [contradiction|]. assert (In v (used (tally init_freq (v :: l')))) by (apply Hu; now left).
        destruct (used _); [contradiction|cbn [length]; lia].
      + apply small_list; [apply NoDup_filter, zrange_NoDup|]. apply Forall_forall. intros v Hv. apply Hu in Hv.
        rewrite Forall_forall in Hs0. now apply Hs0. }
    pose proof (new_optimized_sizes (tally init_freq l) (ho_len _ T1) (ho_nn _ T1) H1 H2 H3) as G.
    destruct (G reference) as (cs & E & [[A M]|[A M]]).
    - destruct M as (t & tb & He0 & _). destruct P as [b u].
      pose proof (rf_exec _ _ (pf_new_optimized 64 u b (tally init_freq l)) _ _ He0 ltac:(intros p; discriminate)) as X.
      unfold emits in He0. rewrite He0. exact X.
    - destruct (G P) as (cs' & E' & [[A' M']|[A' M']]).
      + exfalso. destruct P as [b u].
        pose proof (pf_code_sizes 64 u b 258 (tally init_freq l) (repeat (-1) 257) (repeat 0 257)) as R.
        change {| dbg := true; ubits := 64 |} with reference in R. rewrite E, E' in R.
        assert (X : exec (@Ret (list Z) cs') = ([], Ok cs)).
        { apply (rf_exec _ _ R _ _); [reflexivity|intros p; discriminate]. }
        cbn in X. injection X as ->. apply Exists_exists in A as (x & Hx & A). rewrite Forall_forall in A'. exact (A (A' x Hx)).
      + rewrite M, M'. reflexivity.
  Qed.
  Lemma tables_same P (HP : plat_ok P) im pl (Him : image_ok im pl) : countable s (im_color im) (im_width im) (im_height im) ->
    let cs := init_components (e_sampling e) (im_color im) in
    let blocks := all_blocks im pl F cs (max_h (e_sampling e) (im_color im)) (max_v (e_sampling e) (im_color im))
      (qtable_of (s_luma s) (e_quality e) true) (qtable_of (s_chroma s) (e_quality e) false) in
    exec (tables_for P e cs blocks) = exec (tables_for reference e cs blocks).
  Proof.
    intros Hc cs blocks.
    set (bs := fun i : Z => match nth_error cs (Z.to_nat i) with Some c => map snd (units im pl F (max_h (e_sampling e) (im_color im)) (max_v (e_sampling e) (im_color im))
      (qtable_of (s_luma s) (e_quality e) true) (qtable_of (s_chroma s) (e_quality e) false) (Z.to_nat i) c) | None => [] end).
    assert (HT : 63 * block_total cs bs + 1 < 4294967296).
    { pose proof (total_eq im pl Him F e (s_luma s) (s_chroma s) Hopt) as E.
      change (block_total cs bs = frame_blocks (frame_of (match e_prog e with Some _ => true | None => false end) (im_width im) (im_height im) cs)) in E.
      rewrite E. unfold cs, e. rewrite frame_for_eq. exact Hc. }
    assert (K : forall table, (exists i c, In (i, c) (enumerate cs) /\ c_dc c = table /\ c_ac c = table) ->
      exec (optimize_table P e cs blocks table) = exec (optimize_table reference e cs blocks table)).
    { intros table Hx.
      destruct (optimize_table_exec P HP e (eo_prog _ _ _ He) cs blocks bs (bs_idx reference im pl F e (s_luma s) (s_chroma s))
        (bs_ok im pl Him op F Hop e _ _ He) (fun i c Hi => proj2 (bs_len im pl Him F e _ _ Hopt i c Hi)) HT table Hx) as ((S1 & N1 & L1) & (S2 & N2 & L2) & ->).
      destruct (optimize_table_exec reference (or_intror eq_refl) e (eo_prog _ _ _ He) cs blocks bs (bs_idx reference im pl F e (s_luma s) (s_chroma s))
        (bs_ok im pl Him op F Hop e _ _ He) (fun i c Hi => proj2 (bs_len im pl Him F e _ _ Hopt i c Hi)) HT table Hx) as (_ & _ & ->).
      apply exec_bind_same; [apply (new_same P HP _ S1 N1); exact (Z.le_lt_trans _ _ _ L1 HT)|]. intros d.
      apply exec_bind_same; [apply (new_same P HP _ S2 N2); exact (Z.le_lt_trans _ _ _ L2 HT)|]. reflexivity. }
    unfold tables_for. change (e_optimize e) with (s_optimize s). rewrite Hopt. unfold optimize_huffman_table.
    assert (Hcs : comps_ok cs (max_h (e_sampling e) (im_color im)) (max_v (e_sampling e) (im_color im))) by apply init_components_ok.
    pose proof (K 0 (uses_table0 _ _)) as K0.
    destruct (Z.eq_dec (zlen cs) 1) as [L1|L1].
    - rewrite L1. change (zrange (Z.min 1 2)) with [0]. cbn [foldM].
      apply exec_bind_same; [|reflexivity]. apply exec_bind_same; [exact K0|reflexivity].
    - pose proof (K 1 (uses_table1 _ _ L1)) as K1.
      assert (Em : Z.min (zlen cs) 2 = 2) by (pose proof (cs_len _ _ _ Hcs); unfold zlen in *; lia).
      rewrite Em. change (zrange 2) with [0; 1]. cbn [foldM].
      apply exec_bind_same; [apply exec_bind_same; [exact K0|reflexivity]|]. intros a.
      apply exec_bind_same; [|reflexivity]. apply exec_bind_same; [exact K1|reflexivity].
  Qed.
  (** The tables exist, or the call panics, with the same panic on every platform. *)
  Lemma opt_tables_or im pl : image_ok im pl -> countable s (im_color im) (im_width im) (im_height im) ->
    (exists d0 a0 d1 a1 bd0 ba0 bd1 ba1, opt_tables reference im pl F e (s_luma s) (s_chroma s) d0 a0 d1 a1 bd0 ba0 bd1 ba1) \/
    (~ has_tables s F im pl /\ forall P, plat_ok P -> im_width im * im_height im < 2 ^ (ubits P - 1) ->
       exists bytes, exec (encode_image_internal P op (enc_of s) im) = (bytes, Panicked PIndex)).
  Proof.
    intros Him Hc.
    destruct (proj1 (opt_tables_cases reference (or_intror eq_refl) im pl Him op F Hop e _ _ He Hopt
      ltac:(unfold e; rewrite frame_for_eq; exact Hc))) as [G|G]; [left; exact G|right].
    split.
    { intros (d0 & a0 & d1 & a1 & bd0 & ba0 & bd1 & ba1 & (X & _)). unfold emits in X. fold e in X. rewrite G in X. discriminate X. }
    intros P HP Hfit. apply (deep_panics P HP im pl Him op F Hop e _ _ He Hopt Hfit).
    rewrite (tables_same P HP im pl Him Hc). exact G.
  Qed.
  Lemma opt_tables_done P im pl bytes : plat_ok P -> image_ok im pl -> im_width im * im_height im < 2 ^ (ubits P - 1) ->
    countable s (im_color im) (im_width im) (im_height im) -> exec (encode_image_internal P op (enc_of s) im) = (bytes, Ok tt) ->
    exists d0 a0 d1 a1 bd0 ba0 bd1 ba1, opt_tables reference im pl F e (s_luma s) (s_chroma s) d0 a0 d1 a1 bd0 ba0 bd1 ba1.
  Proof.
    intros HP Him Hfit Hc E. destruct (opt_tables_or im pl Him Hc) as [G|[_ G]]; [exact G|]. exfalso.
    destruct (G P HP Hfit) as (b & X). rewrite X in E. discriminate E.
  Qed.

  Lemma generated_tables P im pl : plat_ok P -> image_ok im pl -> im_width im * im_height im < 2 ^ (ubits P - 1) ->
    countable s (im_color im) (im_width im) (im_height im) ->
    tables_generated s (im_color im) (im_width im) (im_height im) (encode_image_internal P op (enc_of s) im) -> has_tables s F im pl.
  Proof.
    intros HP Him Hfit Hc G. destruct (G Hopt) as [Hfew|N]; [exact (opt_tables_with im pl Him Hfew)|].
    destruct (opt_tables_or im pl Him Hc) as [X|[_ X]]; [exact X|]. exfalso.
    destruct (X P HP Hfit) as (b & E). apply N. rewrite E. reflexivity.
  Qed.

  Lemma opt_tables_any P (HP : plat_ok P) im pl d0 a0 d1 a1 bd0 ba0 bd1 ba1 :
    opt_tables reference im pl F e (s_luma s) (s_chroma s) d0 a0 d1 a1 bd0 ba0 bd1 ba1 ->
    opt_tables P im pl F e (s_luma s) (s_chroma s) d0 a0 d1 a1 bd0 ba0 bd1 ba1.
  Proof.
    intros (H & Hr). split; [|exact Hr]. destruct P as [b u].
    eapply rf_exec; [apply (pf_tables_for 64 u b (or_intror eq_refl) HP)|exact H|intros p; discriminate].
    exact (eo_prog _ _ _ He).
  Qed.

  (** The first four fields of [opt_tables] and a condition on the DC symbols. *)
  Definition dc_written (P : platform) (im : image) (pl : planes) (d0 d1 : htab) (bd0 bd1 : table) : Prop :=
    forall i c, nth_error (init_components (e_sampling e) (im_color im)) i = Some c ->
    path Z unitb (restart_of e) 0 (fun _ u => zn (snd u) 0)
      (fun p u => writes P (sel2 d0 d1 (c_qt c)) (sel2 bd0 bd1 (c_qt c)) (nbits (zn (snd u) 0 - p))) (restart_of e) 0
      (units im pl F (max_h (e_sampling e) (im_color im)) (max_v (e_sampling e) (im_color im))
        (qtable_of (s_luma s) (e_quality e) true) (qtable_of (s_chroma s) (e_quality e) false) i c).

  Lemma covered_written P im pl d0 a0 d1 a1 bd0 ba0 bd1 ba1 :
    opt_tables reference im pl F e (s_luma s) (s_chroma s) d0 a0 d1 a1 bd0 ba0 bd1 ba1 ->
    covered_paths im pl F e (s_luma s) (s_chroma s) -> dc_written P im pl d0 d1 bd0 bd1.
  Proof.
    intros Ht Hc i c Hi. eapply path_mono; [|exact (Hc i c Hi)]. intros p u _ Hu. left.
    exact (counted_codes _ _ _ _ _ _ _ _ _ _ _ _ _ _ _ c _ Ht Hu).
  Qed.
  Lemma no_restarts_covered im pl : image_ok im pl -> no_restarts s (im_color im) (im_width im) (im_height im) ->
    covered_paths im pl F e (s_luma s) (s_chroma s).
  Proof.
    intros Him Hno. apply (no_restart_covered im pl Him F e _ _ Hopt).
    unfold e. rewrite frame_for_eq, restart_of_eq. exact Hno.
  Qed.

  Lemma opt_bytes_written P im pl d0 a0 d1 a1 bd0 ba0 bd1 ba1 : plat_ok P -> image_ok im pl ->
    im_width im * im_height im < 2 ^ (ubits P - 1) ->
    opt_tables reference im pl F e (s_luma s) (s_chroma s) d0 a0 d1 a1 bd0 ba0 bd1 ba1 ->
    dc_written P im pl d0 d1 bd0 bd1 ->
    emits (encode_image_internal P op (enc_of s) im)
      (render_file (file_parts (tables_of d0 a0 d1 a1) s (frame_for s (im_color im) (im_width im) (im_height im)) (im_color im)
         (spec_cf s T im pl))) tt.
  Proof.
    intros HP Him Hfit Hts Hw. apply (opt_tables_any P HP) in Hts.
    destruct Hts as (Ht & V0 & V1 & V2 & V3 & Hsy). set (color := im_color im) in *.
    rewrite <- (parts_eq P s Hs T im pl _ _ _ _ _ (body_scans_eq s color Hs)).
    apply (internal_bytes P op e im (s_luma s) (s_chroma s)); [apply Him|apply Him|exact He|].
    set (cs := init_components (e_sampling e) color) in *. set (mh := max_h (e_sampling e) color) in *. set (mv := max_v (e_sampling e) color) in *.
    set (q0 := qtable_of (s_luma s) (e_quality e) true) in *. set (q1 := qtable_of (s_chroma s) (e_quality e) false) in *.
    assert (Hcs : comps_ok cs mh mv) by apply init_components_ok.
    assert (Hn : length cs = Z.to_nat (num_components (im_color im))) by apply init_components_length.
    assert (Hq0 : qtable_ok q0) by (apply qtable_of_ok; apply (eo_qt0 _ _ _ He)).
    assert (Hq1 : qtable_ok q1) by (apply qtable_of_ok; apply (eo_qt1 _ _ _ He)).
    pose proof (restart_range P im e (s_luma s) (s_chroma s) He) as Hr1.
    pose proof (restart_nz P im e (s_luma s) (s_chroma s) He) as Hr2.
    pose proof (eo_prog _ _ _ He) as Hpr.
    pose proof (spec_cf_ok s Hs F T im pl HF) as Hcf.
    set (uns := units im pl F mh mv q0 q1).
    assert (Hie : forall i c, nth_error cs i = Some c -> In (Z.of_nat i, c) (enumerate cs)).
    { intros i c H. apply in_enum. rewrite Nat2Z.id. split; [lia|exact H]. }
    change (body_bytes P im cs q0 q1 e d0 a0 d1 a1 (spec_cf s T im pl)
              (body P op e cs im q0 q1 (bitw_new P)) (body_scans e cs)).
    assert (Hu : forall i c u, nth_error cs i = Some c -> In u (uns i c) -> ci_of u = i /\ block_ok (snd u)).
    { intros i c u Hi Hu. exact (units_ok im pl Him op F Hop cs mh mv Hcs Hn q0 q1 Hq0 Hq1 i c u Hi Hu). }
    unfold body, body_scans. change (e_optimize e) with (s_optimize s). rewrite Hopt. destruct (e_prog e) as [scans|] eqn:Ep.
    - eapply (progressive_bytes P HP im pl Him op F Hop Hfit cs mh mv Hcs Hn q0 q1 Hq0 Hq1 e Hr1 Hr2
        d0 a0 d1 a1 bd0 ba0 bd1 ba1 V0 V1 (fun _ => V2) (fun _ => V3) (spec_cf s T im pl) Hcf scans Hpr Ht).
      + intros i c Hi. eapply path_mono; [|exact (Hw i c Hi)]. intros v u Hin Hv.
        destruct (Hu i c u Hi Hin) as (U1 & U2). split; [exact U1|split; [exact U2|exact Hv]].
      + intros i c bd Hi Hb. apply Forall_forall. intros u Hin.
        destruct (Hu i c u Hi Hin) as (U1 & U2). split; [exact U1|split; [exact U2|]].
        destruct (Hsy _ c (Hie i c Hi)) as [_ Ha].
        apply Forall_forall. intros v Hv. apply (Ha bd (snd u)); [|rewrite Nat2Z.id, Hi; now apply in_map|exact Hv].
        unfold count_bands. now rewrite Ep.
    - cbn [orb].
      eapply (sequential_bytes P HP im pl Him op F Hop Hfit cs mh mv Hcs Hn q0 q1 Hq0 Hq1 e Hr1 Hr2
        d0 a0 d1 a1 bd0 ba0 bd1 ba1 V0 V1 (fun _ => V2) (fun _ => V3) (spec_cf s T im pl) Hcf Ht).
      intros i c Hi. eapply path_mono; [|exact (Hw i c Hi)]. intros v u Hin Hv.
      destruct (Hu i c u Hi Hin) as (U1 & U2). split; [exact U1|split; [exact U2|]].
      destruct (Hsy _ c (Hie i c Hi)) as [Hd Ha]. split.
      + exact Hv.
      + apply Forall_forall. intros v' Hv'. apply (Ha (1, 64) (snd u)); [|rewrite Nat2Z.id, Hi; now apply in_map|exact Hv'].
        unfold count_bands. rewrite Ep. now left.
  Qed.

  Lemma opt_bytes_with P im pl d0 a0 d1 a1 bd0 ba0 bd1 ba1 : plat_ok P -> image_ok im pl ->
    im_width im * im_height im < 2 ^ (ubits P - 1) ->
    no_restarts s (im_color im) (im_width im) (im_height im) ->
    opt_tables reference im pl F e (s_luma s) (s_chroma s) d0 a0 d1 a1 bd0 ba0 bd1 ba1 ->
    emits (encode_image_internal P op (enc_of s) im)
      (render_file (file_parts (tables_of d0 a0 d1 a1) s (frame_for s (im_color im) (im_width im) (im_height im)) (im_color im)
         (spec_cf s T im pl))) tt.
  Proof.
    intros HP Him Hfit Hno Hts. apply (opt_bytes_written P im pl d0 a0 d1 a1 bd0 ba0 bd1 ba1 HP Him Hfit Hts).
    exact (covered_written P im pl _ _ _ _ _ _ _ _ Hts (no_restarts_covered im pl Him Hno)).
  Qed.
End OptBytes.
