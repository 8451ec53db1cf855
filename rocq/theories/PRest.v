(** Optimized Huffman tables and restart intervals (C03): the DC categories that the tables know, the ones that
    are written, and what the encoder does when a category without a code word has to be written. *)
From Verif Require Import T81 SFile PSegments PSos PFile PTop PEncode PApi POptimal PScan PScans.
From Verif Require Export PSmall SRestart.
From Coq Require Import ZifyBool ZifyNat.

(** ** Panics *)
Definition panics {A} (m : prog A) (k : panic_reason) : Prop := exists b, exec m = (b, Panicked k).
Lemma panics_bind {A B} (m : prog A) (f : A -> prog B) k : panics m k -> panics (bind m f) k.
Proof. intros [b H]. exists b. rewrite exec_bind, H. reflexivity. Qed.
Lemma panics_after {A B} (m : prog A) o a (f : A -> prog B) k : emits m o a -> panics (f a) k -> panics (bind m f) k.
Proof. apply panic_after. Qed.
Lemma panics_foldM {X S} (f : S -> X -> prog S) s k : forall l,
  (forall x, In x l -> (exists o, emits (f s x) o s) \/ panics (f s x) k) ->
  Exists (fun x => panics (f s x) k) l -> panics (foldM f l s) k.
Proof.
  induction l as [|x l IH]; intros H Hx; [inversion Hx|]. cbn [foldM].
  destruct (H x (or_introl eq_refl)) as [[o Hok]|Hp]; [|now apply panics_bind].
  apply (panics_after _ o s _ _ Hok). apply IH; [intros y Hy; apply H; now right|].
  apply Exists_cons in Hx as [[b Hx]|Hx]; [|exact Hx]. unfold emits in Hok. rewrite Hx in Hok. discriminate Hok.
Qed.

Lemma all_or_some {X} (A B : X -> Prop) : forall l, (forall x, In x l -> A x \/ B x) -> Forall A l \/ Exists B l.
Proof.
  induction l as [|x l IH]; intros H; [left; constructor|].
  destruct (H x (or_introl eq_refl)) as [Ha|Hb]; [|right; now constructor].
  destruct (IH (fun y Hy => H y (or_intror Hy))) as [Hl|Hl]; [left; now constructor|right; now constructor].
Qed.

(** ** The scan loop *)
Section LoopPanics.
  Variable P : platform.
  Variable HP : plat_ok P.
  Variables (S U : Type).
  Variable ri : Z.
  Variable Hri : 0 <= ri < 2 ^ 16.
  Variable s0 : S.
  Variable step : S -> U -> bitw -> prog (bitw * S).
  Variable next : S -> U -> S.
  Variables good bad : S -> U -> Prop.
  Variable ubits_ : S -> U -> list bool.
  Variable step_ok : forall s u, good s u -> appendsS P (step s u) (ubits_ s u) (next s u).
  Variable k : panic_reason.
  Variable step_bad : forall s u w, bad s u -> panics (step s u w) k.

  Fixpoint fails (to_go : Z) (s : S) (us : list U) : Prop :=
    match us with
    | [] => False
    | u :: r =>
      let s := if (0 <? ri) && (to_go =? 0) then s0 else s in
      bad s u \/ (good s u /\ fails (if to_go =? 0 then ri - 1 else to_go - 1) (next s u) r)
    end.

  Lemma loop_panics us : forall w pend s m t, rep P w pend -> 0 <= t <= ri -> 0 <= m -> fails t s us ->
    panics (foldM (loop_body P S U ri s0 step) us (w, s, m mod 8, t)) k.
  Proof.
    induction us as [|u us IH]; intros w pend s m t Hrep Ht Hm Hf; [destruct Hf|].
    cbn [fails] in Hf. cbn [foldM].
    assert (G : exists w1 pend1 o1, rep P w1 pend1 /\
      emits (if (0 <? ri) && (t =? 0) then
               let* w := finalize_bit_buffer P w in
               write_marker (RST ((m mod 8) mod 8)) ;;; Ret (w, s0)
             else Ret (w, s)) o1 (w1, if (0 <? ri) && (t =? 0) then s0 else s)).
    { destruct ((0 <? ri) && (t =? 0)).
      - destruct (emits_finalize P w pend HP Hrep) as (data & pad & Hem & _).
        exists (bitw_new P), [], (stuff data ++ [255; 208 + m mod 8]). split; [now apply rep_new|].
        eapply emits_bind; [exact Hem|]. rewrite <- (app_nil_r [255; _]). eapply emits_bind; [|apply emits_ret].
        unfold write_marker, write, marker_byte. rewrite !Z.mod_mod by lia. change 0xFF with 255. change 0xD0 with 208. apply emits_write_all.
      - exists w, pend, []. split; [exact Hrep|]. apply emits_ret. }
    destruct G as (w1 & pend1 & o1 & Hrep1 & E1).
    set (s1 := if (0 <? ri) && (t =? 0) then s0 else s) in *. clearbody s1.
    destruct Hf as [Hb|[Hg Hf]].
    - apply panics_bind. unfold loop_body. apply (panics_after _ _ _ _ _ E1). cbv beta iota.
      apply panics_bind. now apply step_bad.
    - destruct (step_ok s1 u Hg w1 pend1 Hrep1) as (w2 & d2 & pend2 & E2 & _ & Hrep2 & _).
      assert (G : exists m' t', 0 <= m' /\ 0 <= t' <= ri /\ restart_after P ri (m mod 8) t = Ret (m' mod 8, t') /\
        fails t' (next s1 u) us).
      { destruct (Z.eq_dec ri 0) as [R|R].
        - exists m, t. split; [exact Hm|]. split; [exact Ht|]. split.
          + unfold restart_after. replace (0 <? ri) with false by lia. reflexivity.
          + assert (X : forall us t1 t2 s, fails t1 s us -> fails t2 s us); [|exact (X _ _ _ _ Hf)].
            clear - R. induction us as [|v us IH]; intros t1 t2 s; cbn [fails]; [easy|].
            replace (0 <? ri) with false by lia. cbn [andb]. intros [H|[H1 H2]]; [now left|right]. split; [exact H1|].
            exact (IH _ _ _ H2).
        - exists (if t =? 0 then m + 1 else m), (if t =? 0 then ri - 1 else t - 1).
          split; [destruct (t =? 0); lia|]. split; [destruct (t =? 0) eqn:E; lia|]. split; [|exact Hf].
          rewrite restart_after_val by lia. destruct (t =? 0); [|reflexivity].
          replace (Z.land (m mod 8 + 1) 7) with ((m + 1) mod 8); [reflexivity|].
          change 7 with (Z.ones 3). rewrite Z.land_ones by lia. change (2 ^ 3) with 8.
          rewrite Zplus_mod_idemp_l. reflexivity. }
      destruct G as (m' & t' & Hm' & Ht' & E3 & Hf').
      eapply panics_after; [|exact (IH w2 pend2 (next s1 u) m' t' Hrep2 Ht' Hm' Hf')].
      unfold loop_body. eapply emits_bind; [exact E1|]. cbv beta iota.
      eapply emits_bind; [exact E2|]. cbv beta iota. rewrite E3. cbn [bind]. apply emits_ret.
  Qed.
End LoopPanics.

(** ** Paths and restart intervals *)
Notation dcnext := (fun _ u => zn (snd u) 0).
Section Intervals.
  Variable G : Z -> Prop.
  Let good (p : Z) (u : unitb) : Prop := G (nbits (zn (snd u) 0 - p)).
  Lemma path_no_restart us : forall t p, path Z unitb 0 0 dcnext good t p us <-> Forall G (dc_syms (map snd us) p).
  Proof.
    induction us as [|u us IH]; intros t p; cbn [path map dc_syms]; [split; [constructor|exact (fun _ => I)]|].
    cbn [Z.ltb Z.compare andb]. rewrite (IH _ _), Forall_cons_iff. reflexivity.
  Qed.
  Lemma path_groups ri : 0 < ri -> forall us t p, 0 <= t <= ri ->
    path Z unitb ri 0 dcnext good t p us <->
    Forall G (dc_syms (map snd (firstn (Z.to_nat t) us)) p) /\
    Forall G (flat_map (fun g => dc_syms (map snd g) 0) (group (length (skipn (Z.to_nat t) us)) (Z.to_nat ri) (skipn (Z.to_nat t) us))).
  Proof.
    intros Hri. induction us as [|u us IH]; intros t p Ht; cbn [path].
    - rewrite firstn_nil, skipn_nil. cbn. split; [intros _; split; constructor|exact (fun _ => I)].
    - replace (0 <? ri) with true by lia. cbn [andb]. destruct (t =? 0) eqn:Et.
      + replace (Z.to_nat t) with 0%nat by lia. cbn [firstn skipn map dc_syms length group flat_map].
        rewrite IH by lia.
        assert (F1 : firstn (Z.to_nat ri) (u :: us) = u :: firstn (Z.to_nat (ri - 1)) us)
          by (replace (Z.to_nat ri) with (Datatypes.S (Z.to_nat (ri - 1))) by lia; reflexivity).
        assert (F2 : skipn (Z.to_nat ri) (u :: us) = skipn (Z.to_nat (ri - 1)) us)
          by (replace (Z.to_nat ri) with (Datatypes.S (Z.to_nat (ri - 1))) by lia; reflexivity).
        rewrite F1, F2. cbn [map dc_syms app].
        rewrite (Forall_cons_iff G (nbits (zn (snd u) 0 - 0))), Forall_app.
        rewrite (group_length_fuel (Z.to_nat ri) ltac:(lia) (length us) (length (skipn (Z.to_nat (ri - 1)) us)) (skipn (Z.to_nat (ri - 1)) us)) by (rewrite skipn_length; lia).
        unfold good. split; [intros (A & B & C)|intros (_ & A & B & C)]; repeat split; auto.
      + rewrite IH by lia. replace (Z.to_nat t) with (Datatypes.S (Z.to_nat (t - 1))) by lia. cbn [firstn skipn map dc_syms].
        rewrite Forall_cons_iff. unfold good. tauto.
  Qed.
  Lemma path_intervals ri us : 0 <= ri ->
    path Z unitb ri 0 dcnext good ri 0 us <-> Forall G (flat_map (fun g => dc_syms (map snd g) 0) (intervals ri us)).
  Proof.
    intros Hri. unfold intervals. destruct (ri =? 0) eqn:E.
    - replace ri with 0 by lia. rewrite path_no_restart. cbn [flat_map]. now rewrite app_nil_r.
    - rewrite (path_groups ri ltac:(lia) us ri 0 ltac:(lia)). destruct us as [|u us].
      + rewrite firstn_nil, skipn_nil. cbn. split; [intros _; constructor|intros _; split; constructor].
      + cbn [length group flat_map]. rewrite Forall_app.
        rewrite (group_length_fuel (Z.to_nat ri) ltac:(lia) (length us) (length (skipn (Z.to_nat ri) (u :: us))) (skipn (Z.to_nat ri) (u :: us))) by (rewrite skipn_length; cbn [length]; lia).
        reflexivity.
  Qed.
End Intervals.

Lemma dc_categories_eq cf ci : forall us p, Forall (fun u => ci_of u = ci /\ agrees cf u) us ->
  dc_categories p (dc_values cf (map fst us)) = dc_syms (map snd us) p.
Proof.
  induction us as [|[[[c y] x] b] us IH]; intros p HF; [reflexivity|].
  apply Forall_cons_iff in HF as [[Hc Ha] HF']. cbn [ci_of fst snd] in Hc. subst c.
  destruct Ha as [_ Ha]. pose proof (Ha 0 ltac:(lia)) as H0. cbn [fst snd] in H0.
  unfold dc_values. cbn [map fst snd dc_categories dc_syms]. change (map (fun '(ci0, y0, x0) => cf ci0 y0 x0 0) (map fst us)) with (dc_values cf (map fst us)).
  rewrite IH by exact HF'. rewrite <- H0. reflexivity.
Qed.

(** ** Exactness of one table *)
Lemma table_misses P l t tb v : Forall small l -> l <> [] -> 1 + Z.of_nat (length l) < 4294967296 ->
  table_for_syms P l t tb -> 0 <= v < 256 -> ~ In v l -> missing t tb v.
Proof.
  intros Hs Hn Hl (Em & Hv & Hc) Hr Hi.
  destruct init_hok as (I1 & I2 & I3 & I4). pose proof (small_sym l Hs) as Hy.
  destruct (tally_ok l init_freq I1 Hy) as [T1 T2]. pose proof (tally_reserved l init_freq I1 Hy) as T3.
  assert (Hu : forall v, In v (used (tally init_freq l)) <-> In v l).
  { intros x. unfold used. rewrite filter_In, in_zrange. split.
    - intros [Hx Hp]. destruct (tally_pos l init_freq (Z.to_nat x) I1 Hy) as [H|H].
      + unfold zn in Hp. lia.
      + rewrite I4 in H by lia. lia.
      + now rewrite Z2Nat.id in H by lia.
    - intros Hx. pose proof (tally_in l init_freq x I1 Hy Hx). rewrite Forall_forall in Hy. pose proof (Hy x Hx) as Hx'. unfold sym in Hx'. lia. }
  assert (H3 : (1 <= length (used (tally init_freq l)) <= 254)%nat).
  { split.
    + destruct l as [|x l']; [contradiction|]. assert (In x (used (tally init_freq (x :: l')))) by (apply Hu; now left).
      destruct (used _); [contradiction|cbn [length]; lia].
    + apply small_list; [apply NoDup_filter, zrange_NoDup|]. apply Forall_forall. intros x Hx. apply Hu in Hx.
      rewrite Forall_forall in Hs. now apply Hs. }
  assert (H1 : fold_right Z.add 0 (tally init_freq l) < 4294967296) by (fold (tot (tally init_freq l)); lia).
  assert (H2 : 0 < nth 256 (tally init_freq l) 0) by (rewrite T3, I3; lia).
  destruct (new_optimized_cases (tally init_freq l) (ho_len _ T1) (ho_nn _ T1) H1 H2 H3 P) as [M|M].
  2:{ unfold emits in Em. rewrite M in Em. discriminate Em. }
  destruct M as (t' & tb' & He & Hv' & Hp & _ & _ & Hm).
  destruct (emits_inj _ _ _ _ _ Em He) as [_ X]. subst t'.
  pose proof (vt_build _ _ Hv) as B. split; [exact Hr|]. split.
  - apply Hm; [exact Hr|]. now rewrite Hu.
  - apply code_absent. apply table_kraft in B as (_ & _ & ->). intros H. apply Hi, Hu.
    exact (Permutation.Permutation_in _ Hp H).
Qed.

Lemma path_all (good : Z -> unitb -> Prop) ri us : Forall (fun u => block_ok (snd u)) us ->
  (forall p u, In u us -> -1024 <= p <= 1023 -> block_ok (snd u) -> good p u) -> forall t p, -1024 <= p <= 1023 ->
  path Z unitb ri 0 dcnext good t p us.
Proof.
  induction us as [|u us IH]; intros HF H t p Hp; cbn [path]; [exact I|]. apply Forall_cons_iff in HF as [Hu HF].
  split; [apply H; [now left|destruct ((0 <? ri) && (t =? 0)); lia|exact Hu]|].
  apply IH; [exact HF|intros q v Hv; apply H; now right|apply Hu].
Qed.
Lemma path_or_fails (G : Z -> unitb -> Prop) ri us : Forall (fun u => block_ok (snd u)) us ->
  (forall p u, In u us -> -1024 <= p <= 1023 -> block_ok (snd u) -> G p u \/ ~ G p u) -> forall t p, -1024 <= p <= 1023 ->
  path Z unitb ri 0 dcnext G t p us \/
  fails Z unitb ri 0 dcnext (fun p u => In u us /\ -1024 <= p <= 1023 /\ G p u) (fun p u => In u us /\ -1024 <= p <= 1023 /\ ~ G p u) t p us.
Proof.
  intros HF H. assert (X : forall l, incl l us -> forall t p, -1024 <= p <= 1023 -> path Z unitb ri 0 dcnext G t p l \/
    fails Z unitb ri 0 dcnext (fun p u => In u us /\ -1024 <= p <= 1023 /\ G p u) (fun p u => In u us /\ -1024 <= p <= 1023 /\ ~ G p u) t p l);
    [|apply X, incl_refl].
  rewrite Forall_forall in HF.
  induction l as [|u l IH]; intros Hl t p Hp; cbn [path fails]; [now left|].
  assert (Hin : In u us) by (apply Hl; now left). pose proof (HF u Hin) as Hu.
  set (q := if (0 <? ri) && (t =? 0) then 0 else p).
  assert (Hq : -1024 <= q <= 1023) by (unfold q; destruct ((0 <? ri) && (t =? 0)); lia). clearbody q.
  destruct (H q u Hin Hq Hu) as [Hg|Hg]; [|right; left; auto].
  destruct (IH (fun x Hx => Hl x (or_intror Hx)) (if t =? 0 then ri - 1 else t - 1) (zn (snd u) 0) (proj1 (proj2 Hu))) as [Hr|Hr].
  - left. now split.
  - right. right. auto.
Qed.
Lemma missing_panics P w t tb value prev : dbg P = true -> Z.abs (value - prev) < 2 ^ 11 -> missing t tb (nbits (value - prev)) ->
  panics (write_dc P w value prev t) PDebugAssert.
Proof.
  intros Hd Hv (Hr & Hl & _). exists []. pose proof (nbits_bound _ 11 ltac:(lia) Hv) as Hn. unfold write_dc.
  rewrite ck_s_ret by (change (2 ^ (16 - 1)) with 32768; lia). cbn [bind].
  rewrite get_code_ret by lia. cbn [bind]. unfold huffman_encode_value, get_for_value.
  rewrite (index_nth _ (nbits (value - prev)) _ ltac:(lia) Hl). cbn [bind fst]. unfold debug_assert. rewrite Hd. reflexivity.
Qed.

Lemma dc_range p (u : unitb) : -1024 <= p <= 1023 -> block_ok (snd u) -> Z.abs (zn (snd u) 0 - p) < 2 ^ 11 /\ 0 <= nbits (zn (snd u) 0 - p) <= 11.
  Proof.
    intros Hp Hu. assert (H : Z.abs (zn (snd u) 0 - p) < 2 ^ 11) by (now apply block_ok_dcdiff).
    split; [exact H|]. apply (nbits_bound _ 11); [lia|exact H].
  Qed.

Section Rest.
  Variable s : settings.
  Variable Hs : settings_wf s.
  Variable Hopt : s_optimize s = true.
  Variable op : operations.
  Variable F : list Z -> list Z.
  Variable T : transform.
  Variable Hop : op_ok op F.
  Variable HF : transform_is F T.
  Variable im : image.
  Variable pl : planes.
  Variable Him : image_ok im pl.
  Let e := enc_of s.
  Let He : enc_ok e (s_luma s) (s_chroma s) := enc_of_ok s Hs.
  Let color := im_color im.
  Let cs := init_components (e_sampling e) color.
  Let mh := max_h (e_sampling e) color.
  Let mv := max_v (e_sampling e) color.
  Let q0 := qtable_of (s_luma s) (e_quality e) true.
  Let q1 := qtable_of (s_chroma s) (e_quality e) false.
  Let uns := units im pl F mh mv q0 q1.
  Let bs (i : Z) : list (list Z) := match nth_error cs (Z.to_nat i) with Some c => map snd (uns (Z.to_nat i) c) | None => [] end.
  Let f := frame_for s color (im_width im) (im_height im).
  Let cf := coefficients_of T s color pl (im_width im) (im_height im).
  Let Hcs : comps_ok cs mh mv. Proof. apply init_components_ok. Qed.
  Let Hn : length cs = Z.to_nat (num_components color). Proof. apply init_components_length. Qed.
  Let Hprog' : match e_prog e with Some n => 2 <= n <= 64 | None => True end.
  Proof. exact (eo_prog _ _ _ He). Qed.

  Notation is_counted := (counted im pl F e (s_luma s) (s_chroma s)).
  Notation is_covered := (covered_paths im pl F e (s_luma s) (s_chroma s)).

  Lemma at_enum i c : nth_error cs i = Some c -> In (Z.of_nat i, c) (enumerate cs) /\ bs (Z.of_nat i) = map snd (uns i c).
  Proof. intros H. split; [now apply in_enum_nat|]. unfold bs. now rewrite Nat2Z.id, H. Qed.
  Lemma counted_in c v : is_counted c v <-> In v (all_dc cs bs (c_qt c)).
  Proof.
    pose proof (all_dc_eq s F im pl (c_qt c)) as E. fold e color cs mh mv q0 q1 uns bs in E. rewrite E, in_flat_map. clear E. split.
    - intros (j & c' & Hj & Eq & Hv). exists (j, c'). split; [exact Hj|]. cbn [fst snd]. rewrite Eq, Z.eqb_refl. exact Hv.
    - intros ([j c'] & Hj & Hv). cbn [fst snd] in Hv. destruct (c_qt c' =? c_qt c) eqn:E; [|destruct Hv].
      exists j, c'. split; [exact Hj|]. split; [lia|exact Hv].
  Qed.
  Lemma counted_dec c v : is_counted c v \/ ~ is_counted c v.
  Proof.
    rewrite counted_in. destruct (in_dec Z.eq_dec v (all_dc cs bs (c_qt c))) as [H|H]; [now left|now right].
  Qed.
  Lemma unit_blocks i c : nth_error cs i = Some c -> Forall (fun u => block_ok (snd u)) (uns i c).
  Proof.
    assert (Hq0 : qtable_ok q0) by (apply qtable_of_ok; apply (eo_qt0 _ _ _ He)).
    assert (Hq1 : qtable_ok q1) by (apply qtable_of_ok; apply (eo_qt1 _ _ _ He)).
    intros Hi. apply Forall_forall. intros u Hu.
    apply (units_ok im pl Him op F Hop cs mh mv Hcs Hn q0 q1 Hq0 Hq1 i c u Hi Hu).
  Qed.

  (** *** The two formulations *)
  Lemma counted_eq i c : nth_error cs i = Some c -> counted_categories cf f i = dc_syms (bs (Z.of_nat i)) 0.
  Proof.
    intros Hi. destruct (at_enum i c Hi) as [_ ->]. unfold counted_categories.
    assert (E : mcus_of f (component_scan i) = map (fun u => [fst u]) (uns i c)).
    { unfold mcus_of, component_scan. cbn [si_comps flat_map app]. unfold f, color. rewrite (comp_at s im i c Hi). cbn [app scan_mcus].
      rewrite <- frame_for_eq. apply (single_mcus_units im pl F cs mh mv Hcs q0 q1 _ _ c Hi). }
    rewrite E, concat_singles. apply (dc_categories_eq cf i). exact (units_fine s Hs op F T Hop HF im pl Him i c Hi).
  Qed.
  Lemma written_eq i c : nth_error cs i = Some c ->
    written_categories cf f (s_restart s) i = flat_map (fun g => dc_syms (map snd g) 0) (intervals (restart_of e) (uns i c)).
  Proof.
    intros Hi. unfold written_categories.
    assert (E : mcus_of f (component_scan i) = map (fun u => [fst u]) (uns i c)).
    { unfold mcus_of, component_scan. cbn [si_comps flat_map app]. unfold f, color. rewrite (comp_at s im i c Hi). cbn [app scan_mcus].
      rewrite <- frame_for_eq. apply (single_mcus_units im pl F cs mh mv Hcs q0 q1 _ _ c Hi). }
    rewrite E, intervals_map. unfold e. rewrite restart_of_eq.
    rewrite !flat_map_concat_map, map_map. f_equal. apply map_ext_in. intros g Hg. rewrite concat_singles.
    apply (dc_categories_eq cf i). apply (PBytes.incl_Forall _ g (uns i c)); [now apply (intervals_incl (s_restart s))|].
    exact (units_fine s Hs op F T Hop HF im pl Him i c Hi).
  Qed.
  Lemma comp_back i c0 : nth_error (fr_comps f) i = Some c0 -> exists c, nth_error cs i = Some c /\ c0 = comp_of c.
  Proof.
    unfold f. rewrite <- frame_for_eq. unfold frame_of. cbn [fr_comps]. rewrite nth_error_map.
    intros X. assert (Y : option_map comp_of (nth_error cs i) = Some c0) by exact X. destruct (nth_error cs i) as [c|]; cbn [option_map] in Y; [|discriminate Y].
    exists c. split; [reflexivity|]. congruence.
  Qed.

  Lemma covered_iff : is_covered <-> restart_covered T s color pl (im_width im) (im_height im).
  Proof.
    pose proof (restart_range reference im e (s_luma s) (s_chroma s) He) as Hr.
    unfold restart_covered. fold f cf. split.
    - intros H i c0 k H0 Hk. destruct (comp_back i c0 H0) as (c & Hi & ->). rewrite (written_eq i c Hi) in Hk.
      pose proof (H i c Hi) as Hp. apply (path_intervals (is_counted c)) in Hp; [|lia].
      rewrite Forall_forall in Hp. destruct (Hp k Hk) as (j & c' & Hj & Eq & Hv).
      destruct (in_enum_at s F im pl j c' Hj) as [Hj' _]. exists (Z.to_nat j), (comp_of c').
      split; [exact (comp_at s im _ c' Hj')|]. split; [exact Eq|]. rewrite (counted_eq _ c' Hj').
      rewrite Z2Nat.id; [exact Hv|]. apply in_enum in Hj. lia.
    - intros H i c Hi. apply (path_intervals (is_counted c)); [lia|]. apply Forall_forall. intros k Hk.
      destruct (H i (comp_of c) k (comp_at s im i c Hi)) as (j & c0 & Hj & Eq & Hv).
      { rewrite (written_eq i c Hi). exact Hk. }
      destruct (comp_back j c0 Hj) as (c' & Hj' & ->). rewrite (counted_eq j c' Hj') in Hv.
      exists (Z.of_nat j), c'. split; [now apply in_enum_nat|]. split; [exact Eq|exact Hv].
  Qed.

  (** *** The tables have no code word for any other category *)
  Variable Hfew : countable s (im_color im) (im_width im) (im_height im).
  Lemma not_counted d0 a0 d1 a1 bd0 ba0 bd1 ba1 i c v :
    opt_tables reference im pl F e (s_luma s) (s_chroma s) d0 a0 d1 a1 bd0 ba0 bd1 ba1 ->
    nth_error cs i = Some c -> 0 <= v < 256 -> ~ is_counted c v ->
    missing (sel2 d0 d1 (c_qt c)) (sel2 bd0 bd1 (c_qt c)) v.
  Proof.
    intros Ht Hi Hv Hno. rewrite counted_in in Hno.
    destruct (tables_made s Hs Hopt op F Hop im pl Him Hfew _ _ _ _ _ _ _ _ Ht) as [[T0 _] T1].
    pose proof (bs_ok im pl Him op F Hop e _ _ He) as B.
    pose proof (bs_idx reference im pl F e (s_luma s) (s_chroma s)) as BI.
    pose proof (fun i c Hi => proj2 (bs_len im pl Him F e (s_luma s) (s_chroma s) Hopt i c Hi)) as BN.
    assert (BT : block_total cs bs = block_count f).
    { pose proof (total_eq im pl Him F e (s_luma s) (s_chroma s) Hopt) as E.
      change (block_total cs bs = frame_blocks (frame_of (match e_prog e with Some _ => true | None => false end) (im_width im) (im_height im) cs)) in E.
      rewrite E. unfold cs, e, color. rewrite frame_for_eq. reflexivity. }
    assert (G : forall d x bx, (exists i c, In (i, c) (enumerate cs) /\ c_dc c = d /\ c_ac c = d) ->
      table_for_syms reference (all_dc cs bs d) x bx -> ~ In v (all_dc cs bs d) -> missing x bx v).
    { intros d x bx Hd Tx Hnv. destruct (all_dc_ok cs _ bs BI B BN d) as [S1 L1].
      destruct (nonempty s Hs Hopt op F Hop im pl Him d Hd) as [N1 _].
      apply (table_misses reference (all_dc cs bs d)); try assumption.
      rewrite BT in L1. unfold countable in Hfew. fold color f in Hfew. clear - L1 Hfew.
      generalize dependent (block_count f). intros n H1 H2.
      generalize dependent (length (all_dc cs bs d)). intros m H2. lia. }
    pose proof (cs_comp _ _ _ Hcs _ _ Hi) as Hc.
    destruct (ck_qt _ _ _ _ _ Hc) as [E|[E E3]]; rewrite E in *; unfold sel2; cbn [Z.eqb Pos.eqb].
    - exact (G 0 d0 bd0 (uses_table0 _ _) T0 Hno).
    - assert (L1 : zlen cs <> 1) by (unfold zlen; lia). exact (G 1 d1 bd1 (uses_table1 _ _ L1) (proj1 (T1 L1)) Hno).
  Qed.


  Lemma release_written P d0 a0 d1 a1 bd0 ba0 bd1 ba1 : dbg P = false ->
    opt_tables reference im pl F e (s_luma s) (s_chroma s) d0 a0 d1 a1 bd0 ba0 bd1 ba1 ->
    dc_written s F P im pl d0 d1 bd0 bd1.
  Proof.
    intros Hd Ht i c Hi. apply path_all; [exact (unit_blocks i c Hi)| |lia].
    intros p u _ Hp Hu. destruct (dc_range p u Hp Hu) as [_ Hr].
    destruct (counted_dec c (nbits (zn (snd u) 0 - p))) as [Hc|Hc].
    - left. exact (counted_codes _ _ _ _ _ _ _ _ _ _ _ _ _ _ _ c _ Ht Hc).
    - right. split; [exact Hd|]. apply (not_counted _ _ _ _ _ _ _ _ i c _ Ht Hi); [lia|exact Hc].
  Qed.

  Variable P : platform.
  Variable HP : plat_ok P.
  Variable Hfit : im_width im * im_height im < 2 ^ (ubits P - 1).
  Variable Hdbg : dbg P = true.
  Variables (d0 a0 d1 a1 : htab) (bd0 ba0 bd1 ba1 : table).
  Variable Ht : opt_tables reference im pl F e (s_luma s) (s_chroma s) d0 a0 d1 a1 bd0 ba0 bd1 ba1.
  Let Hq0 : qtable_ok q0. Proof. apply qtable_of_ok; apply (eo_qt0 _ _ _ He). Qed.
  Let Hq1 : qtable_ok q1. Proof. apply qtable_of_ok; apply (eo_qt1 _ _ _ He). Qed.
  Let blocks := all_blocks im pl F cs mh mv q0 q1.
  Let ht := [(d0, a0); (d1, a1)].
  Let ri := restart_of e.
  Let Hri : 0 <= ri < 2 ^ 16. Proof. exact (restart_range P im e (s_luma s) (s_chroma s) He). Qed.
  Let Ht' : opt_tables P im pl F e (s_luma s) (s_chroma s) d0 a0 d1 a1 bd0 ba0 bd1 ba1.
  Proof. exact (opt_tables_any s Hs F P HP im pl _ _ _ _ _ _ _ _ Ht). Qed.
  Let Hcf := spec_cf_ok s Hs F T im pl HF.

  Definition cov (c : component) (p : Z) (u : unitb) : Prop := is_counted c (nbits (zn (snd u) 0 - p)).
  Lemma cov_codes c p u : cov c p u -> codes (sel2 d0 d1 (c_qt c)) (sel2 bd0 bd1 (c_qt c)) (nbits (zn (snd u) 0 - p)).
  Proof. intros H. exact (counted_codes _ _ _ _ _ _ _ _ _ _ _ _ _ _ _ c _ Ht H). Qed.
  Lemma cov_cases i c : nth_error cs i = Some c ->
    path Z unitb ri 0 dcnext (cov c) ri 0 (uns i c) \/
    fails Z unitb ri 0 dcnext (fun p u => In u (uns i c) /\ -1024 <= p <= 1023 /\ cov c p u)
      (fun p u => In u (uns i c) /\ -1024 <= p <= 1023 /\ ~ cov c p u) ri 0 (uns i c).
  Proof.
    intros Hi. apply path_or_fails; [exact (unit_blocks i c Hi)| |lia]. intros p u _ _ _. apply counted_dec.
  Qed.
  Lemma bad_unit i c p u w : nth_error cs i = Some c -> In u (uns i c) -> -1024 <= p <= 1023 -> ~ cov c p u ->
    panics (write_dc P w (zn (snd u) 0) p (sel2 d0 d1 (c_qt c))) PDebugAssert.
  Proof.
    intros Hi Hu Hp Hc. pose proof (unit_blocks i c Hi) as B. rewrite Forall_forall in B.
    destruct (dc_range p u Hp (B u Hu)) as [R1 R2].
    apply (missing_panics P w _ (sel2 bd0 bd1 (c_qt c)) _ _ Hdbg R1).
    apply (not_counted _ _ _ _ _ _ _ _ i c _ Ht Hi); [lia|exact Hc].
  Qed.
  Lemma uniq_sel i c : nth_error cs i = Some c -> uniq_syms (sel2 bd0 bd1 (c_qt c)) /\ uniq_syms (sel2 ba0 ba1 (c_qt c)).
  Proof.
    intros Hi. destruct Ht as (_ & V0 & V1 & V2 & V3 & _). unfold sel2. destruct (c_qt c =? 0); split; eapply valid_tab_uniq; eassumption.
  Qed.

  Lemma header_emits c sp : In c cs -> exists o, emits (write_scan_header [c] sp) o tt.
  Proof.
    intros Hc. eexists. apply emits_write_sos; [|cbn [length]; lia]. constructor; [|constructor].
    pose proof (smalls cs mh mv Hcs) as S. rewrite Forall_forall in S. now apply S.
  Qed.

  Lemma some_panic (m : bitw -> Z * component -> prog bitw) :
    (forall i c, In (i, c) (enumerate cs) ->
       (path Z unitb ri 0 dcnext (cov c) ri 0 (uns (Z.to_nat i) c) /\ exists o, emits (m (bitw_new P) (i, c)) o (bitw_new P)) \/
       panics (m (bitw_new P) (i, c)) PDebugAssert) ->
    ~ is_covered -> panics (foldM m (enumerate cs) (bitw_new P)) PDebugAssert.
  Proof.
    intros K Hnc. apply panics_foldM.
    - intros [i c] Hic. destruct (K i c Hic) as [[_ H]|H]; [now left|now right].
    - destruct (all_or_some (fun ic => path Z unitb ri 0 dcnext (cov (snd ic)) ri 0 (uns (Z.to_nat (fst ic)) (snd ic)))
        (fun ic => panics (m (bitw_new P) ic) PDebugAssert) (enumerate cs)) as [A|A]; [| |exact A].
      + intros [i c] Hic. destruct (K i c Hic) as [[H _]|H]; [now left|now right].
      + exfalso. apply Hnc. intros i c Hi. destruct (at_enum i c Hi) as [Hic _]. rewrite Forall_forall in A.
        specialize (A _ Hic). cbn [fst snd] in A. rewrite Nat2Z.id in A. exact A.
  Qed.

  Lemma seq_prog_panics : e_prog e = None -> ~ is_covered -> panics (seq_prog P im pl F cs mh mv q0 q1 e d0 a0 d1 a1 (bitw_new P)) PDebugAssert.
  Proof.
    intros Ep Hnc. unfold seq_prog. destruct Ht as (_ & V0 & V1 & V2 & V3 & Hsy).
    assert (Hac : forall i c u, nth_error cs i = Some c -> In u (uns i c) ->
      Forall (codes (sel2 a0 a1 (c_qt c)) (sel2 ba0 ba1 (c_qt c))) (ac_syms (slice (snd u) 1 64) 0)).
    { intros i c u Hi Hu. destruct (at_enum i c Hi) as [Hic Eb]. destruct (Hsy _ c Hic) as [_ Ha].
      apply Forall_forall. intros v Hv. apply (Ha (1, 64) (snd u)); [| |exact Hv].
      - unfold count_bands. rewrite Ep. now left.
      - change (In (snd u) (bs (Z.of_nat i))). rewrite Eb. now apply in_map. }
    assert (K : forall i c, In (i, c) (enumerate cs) ->
      let m := write_scan_header [c] None ;;;
        let* bs := index blocks i in let* dc := dc_table ht c in let* ac := ac_table ht c in sequential_scan P ri bs dc ac (bitw_new P) in
      ((path Z unitb ri 0 dcnext (cov c) ri 0 (uns (Z.to_nat i) c) /\ exists o, emits m o (bitw_new P)) \/ panics m PDebugAssert)).
    { intros i c Hic m. pose proof (in_enum_at s F im pl i c Hic) as [Hc _].
      pose proof (unit_blocks _ c Hc) as HB. rewrite Forall_forall in HB.
      destruct (cov_cases _ c Hc) as [Hp|Hp].
      - left. split; [exact Hp|]. eexists.
        apply (seq_comp_bytes P HP im pl Him op F Hop cs mh mv Hcs Hn q0 q1 Hq0 Hq1 e Hri d0 a0 d1 a1 bd0 ba0 bd1 ba1
                 V0 V1 (fun _ => V2) (fun _ => V3) _ Hcf i c Hic).
        eapply path_mono; [|exact Hp]. intros p u Hu Hcv.
        destruct (units_ok im pl Him op F Hop cs mh mv Hcs Hn q0 q1 Hq0 Hq1 _ c u Hc Hu) as [U1 U2].
        split; [exact U1|]. split; [exact U2|]. split; [left; now apply cov_codes|]. exact (Hac _ c u Hc Hu).
      - right. unfold m. destruct (header_emits c None (nth_error_In _ _ Hc)) as [o Ho]. apply (panics_after _ o tt _ _ Ho).
        pose proof (index_blocks P im pl F cs mh mv Hn q0 q1 e d1 a1 bd1 ba1 (fun _ => V2) (fun _ => V3) i c Hic) as Eb.
        change (index blocks i = Ret (map snd (uns (Z.to_nat i) c))) in Eb.
        destruct (index_ht2 cs mh mv Hcs d0 a0 d1 a1 c (nth_error_In _ _ Hc)) as [E1 E2]. fold ht in E1, E2.
        rewrite Eb, E1, E2. cbn [bind]. unfold panics. rewrite sequential_scan_loop. unfold loop.
        destruct (uniq_sel _ c Hc) as [N1 N2].
        apply panics_bind. change 0 with (0 mod 8) at 3.
        eapply (loop_panics P HP Z unitb ri Hri 0 _ dcnext) with (pend := []); [| |now apply rep_new|lia|lia|exact Hp].
        + intros p u (Hu & Hr & Hcv). apply appendsS_ret.
          apply (write_block_bits P HP _ _ (sel2 bd0 bd1 (c_qt c)) (sel2 ba0 ba1 (c_qt c)) _ _ N1 N2 (HB u Hu) Hr); [left; now apply cov_codes|].
          exact (Hac _ c u Hc Hu).
        + intros p u w (Hu & Hr & Hcv). unfold seq_step. apply panics_bind. unfold write_block. apply panics_bind.
          exact (bad_unit _ c p u w Hc Hu Hr Hcv). }
    apply (some_panic _ K Hnc).
  Qed.

  Lemma dc_prog_panics : ~ is_covered -> panics (dc_prog P im pl F cs mh mv q0 q1 e d0 a0 d1 a1 (bitw_new P)) PDebugAssert.
  Proof.
    intros Hnc. unfold dc_prog. destruct Ht as (_ & V0 & V1 & V2 & V3 & Hsy).
    assert (K : forall i c, In (i, c) (enumerate cs) ->
      let m := write_scan_header [c] (Some (0, 0)) ;;;
        let* bs := index blocks i in let* dc := dc_table ht c in dc_scan P ri bs dc (bitw_new P) in
      ((path Z unitb ri 0 dcnext (cov c) ri 0 (uns (Z.to_nat i) c) /\ exists o, emits m o (bitw_new P)) \/ panics m PDebugAssert)).
    { intros i c Hic m. pose proof (in_enum_at s F im pl i c Hic) as [Hc _].
      pose proof (unit_blocks _ c Hc) as HB. rewrite Forall_forall in HB.
      destruct (cov_cases _ c Hc) as [Hp|Hp].
      - left. split; [exact Hp|]. eexists.
        apply (dc_comp_bytes P HP im pl Him op F Hop cs mh mv Hcs Hn q0 q1 Hq0 Hq1 e Hri d0 a0 d1 a1 bd0 ba0 bd1 ba1
                 V0 V1 (fun _ => V2) (fun _ => V3) _ Hcf i c Hic).
        eapply path_mono; [|exact Hp]. intros p u Hu Hcv.
        destruct (units_ok im pl Him op F Hop cs mh mv Hcs Hn q0 q1 Hq0 Hq1 _ c u Hc Hu) as [U1 U2].
        split; [exact U1|]. split; [exact U2|]. left. now apply cov_codes.
      - right. unfold m. destruct (header_emits c (Some (0, 0)) (nth_error_In _ _ Hc)) as [o Ho]. apply (panics_after _ o tt _ _ Ho).
        pose proof (index_blocks P im pl F cs mh mv Hn q0 q1 e d1 a1 bd1 ba1 (fun _ => V2) (fun _ => V3) i c Hic) as Eb.
        change (index blocks i = Ret (map snd (uns (Z.to_nat i) c))) in Eb.
        destruct (index_ht2 cs mh mv Hcs d0 a0 d1 a1 c (nth_error_In _ _ Hc)) as [E1 E2]. fold ht in E1, E2.
        rewrite Eb, E1. cbn [bind]. unfold panics. rewrite dc_scan_loop. unfold loop.
        destruct (uniq_sel _ c Hc) as [N1 N2].
        apply panics_bind. change 0 with (0 mod 8) at 3.
        eapply (loop_panics P HP Z unitb ri Hri 0 _ dcnext) with (pend := []); [| |now apply rep_new|lia|lia|exact Hp].
        + intros p u (Hu & Hr & Hcv). apply appendsS_ret.
          apply (write_dc_bits P HP _ (sel2 bd0 bd1 (c_qt c)) _ _ N1 (proj1 (dc_range p u Hr (HB u Hu)))). left. now apply cov_codes.
        + intros p u w (Hu & Hr & Hcv). unfold PScans.dc_step. apply panics_bind.
          exact (bad_unit _ c p u w Hc Hu Hr Hcv). }
    apply (some_panic _ K Hnc).
  Qed.

  Lemma debug_panics : ~ is_covered -> panics (encode_image_internal P op e im) PDebugAssert.
  Proof.
    intros Hnc. pose proof Ht' as (Htab & V0 & V1 & V2 & V3 & _).
    change (emits (tables_for P e cs blocks) [] ht) in Htab.
    assert (Hb : emits (encode_blocks P op cs im q0 q1) [] blocks)
      by exact (blocks_emits P HP im pl Him op F Hop Hfit cs mh mv Hcs Hn q0 q1 Hq0 Hq1 e d1 a1 bd1 ba1 (fun _ => V2) (fun _ => V3)).
    pose proof (header_bytes P im pl Him F cs mh mv Hcs Hn q0 q1 e Hri (restart_nz P im e (s_luma s) (s_chroma s) He) d0 a0 d1 a1 bd0 ba0 bd1 ba1
                 V0 V1 (fun _ => V2) (fun _ => V3) _ Hcf) as Hh.
    assert (B : panics (body P op e cs im q0 q1 (bitw_new P)) PDebugAssert).
    { unfold body. change (e_optimize e) with (s_optimize s). rewrite Hopt. cbn [orb]. destruct (e_prog e) as [n|] eqn:Ep.
      - eapply panics_after; [exact Hb|]. eapply panics_after; [exact Htab|]. eapply panics_after; [exact Hh|].
        apply panics_bind. exact (dc_prog_panics Hnc).
      - eapply panics_after; [exact Hb|]. eapply panics_after; [exact Htab|]. eapply panics_after; [exact Hh|].
        exact (seq_prog_panics Ep Hnc). }
    pose proof (io_width _ _ Him). pose proof (io_height _ _ Him).
    unfold encode_image_internal.
    replace ((im_width im =? 0) || (im_height im =? 0)) with false by lia.
    rewrite (eo_qtypes _ _ _ He), (eo_comps _ _ _ He).
    change (index [s_luma s; s_chroma s] 0) with (@Ret qtype (s_luma s)). change (index [s_luma s; s_chroma s] 1) with (@Ret qtype (s_chroma s)).
    cbn [bind app]. rewrite new_with_quality_ret. cbn [bind].
    eapply panics_after; [rewrite new_with_quality_ret; apply emits_ret|].
    eapply panics_after; [apply emits_write_all|].
    eapply panics_after; [apply emits_write_header|].
    destruct (adobe_dec P (im_color im) []) as (o1 & E1 & _).
    eapply panics_after; [exact E1|].
    destruct (segments_dec P (e_segments e) (eo_segs _ _ _ He) []) as (o2 & E2 & _).
    eapply panics_after; [exact E2|].
    apply panics_bind. exact B.
  Qed.
End Rest.
