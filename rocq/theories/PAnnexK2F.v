(** Lemmas: the tables of an optimized file are those of Annex K.2 (property C70). *)
From Verif Require Import T81 SFile SEncode SSize SHuff SRestart SUsed SAnnexK2 PTree PLimit PAnnexK2 PSmall PRest PParse PBytes PSegments PCode PDecide PCount SDecide PMax PUsed ThmScan ThmRound ThmHuff ThmBytes.
From Coq Require Import ZArith List Bool Lia Permutation.
Import ListNotations.
Open Scope Z_scope.

(** ** Histograms *)
Definition occ (k : nat) (l : list Z) : Z := Z.of_nat (length (filter (Z.eqb (Z.of_nat k)) l)).
Lemma tally_occ : forall l f k, hok f -> Forall sym l -> nth k (tally f l) 0 = nth k f 0 + occ k l.
Proof.
  induction l as [|x l IH]; intros f k Hf Hl; [unfold occ; cbn; lia|].
  inversion Hl as [|? ? Hx Hl']; subst. cbn [tally fold_left]. fold (tally (bump f x) l).
  rewrite IH by (assumption || now apply bump_hok). rewrite nth_bump by assumption. unfold occ. cbn [filter].
  unfold sym in Hx. destruct (Z.eqb_spec (Z.of_nat k) x) as [E|E].
  - subst x. rewrite Nat2Z.id, Nat.eqb_refl. cbn [length]. lia.
  - destruct (Nat.eqb_spec (Z.to_nat x) k) as [E'|E']; [lia|]. destruct (Nat.eqb_spec k (Z.to_nat x)); lia.
Qed.
Lemma histogram_nth l k : Forall sym l -> nth k (histogram_of l) 0 = nth k init_freq 0 + occ k l.
Proof.
  intros Hl. unfold histogram_of.
  assert (Lm : length (map (fun v => Z.of_nat (length (filter (Z.eqb v) l))) (upto 256)) = 256%nat) by (rewrite map_length; reflexivity).
  assert (Big : (256 <= k)%nat -> occ k l = 0).
  { intros Hk. unfold occ.
    assert (E : filter (Z.eqb (Z.of_nat k)) l = []); [|now rewrite E].
    clear Lm. induction Hl as [|x l Hx Hl IH]; [reflexivity|]. cbn [filter]. unfold sym in Hx. destruct (Z.eqb_spec (Z.of_nat k) x); [lia|exact IH]. }
  destruct (Nat.lt_ge_cases k 256) as [H|H].
  - rewrite app_nth1 by (rewrite Lm; exact H).
    assert (E0 : nth k init_freq 0 = 0).
    { unfold init_freq. rewrite app_nth1 by (rewrite repeat_length; exact H). apply nth_repeat. }
    rewrite E0. rewrite (nth_indep _ 0 (Z.of_nat (length (filter (Z.eqb 0) l)))) by (rewrite Lm; exact H).
    rewrite (map_nth (fun v => Z.of_nat (length (filter (Z.eqb v) l)))). unfold upto. change 0 with (Z.of_nat 0) at 1. rewrite map_nth, seq_nth by exact H. reflexivity.
  - rewrite app_nth2 by (rewrite Lm; exact H). rewrite Lm, (Big H), Z.add_0_r. unfold init_freq.
    rewrite app_nth2 by (rewrite repeat_length; exact H). rewrite repeat_length. reflexivity.
Qed.
Lemma occ_perm k l l' : Permutation l l' -> occ k l = occ k l'.
Proof.
  intros H. unfold occ. f_equal. apply Permutation_length. induction H; cbn [filter]; try reflexivity.
  - destruct (Z.of_nat k =? x); [now constructor|assumption].
  - destruct (Z.of_nat k =? y), (Z.of_nat k =? x); try reflexivity. apply perm_swap.
  - now transitivity (filter (Z.eqb (Z.of_nat k)) l').
Qed.
Lemma tally_histogram l l' : Permutation l l' -> Forall sym l -> tally init_freq l = histogram_of l'.
Proof.
  intros Hp Hl. destruct init_hok as (I1 & _). assert (Hl' := Permutation_Forall Hp Hl).
  apply (nth_ext _ _ 0 0).
  - destruct (tally_ok l init_freq I1 Hl) as [[H _] _]. rewrite H. unfold histogram_of. rewrite app_length, map_length. reflexivity.
  - intros k _. rewrite tally_occ, histogram_nth by assumption. now rewrite (occ_perm k l l' Hp).
Qed.

(** ** One table *)
Lemma made_is_annexK2 l l' x bx : Permutation l l' -> Forall small l -> l <> [] -> 1 + Z.of_nat (length l) < 4294967296 ->
  table_for_syms reference l x bx -> annexK2_table (histogram_of l') = (h_length x, h_values x).
Proof.
  intros Hp Hs0 Hn Hl (He & _ & _). rewrite <- (tally_histogram l l' Hp (small_sym l Hs0)).
  destruct init_hok as (I1 & I2 & I3 & I4). pose proof (small_sym l Hs0) as Hy.
  destruct (tally_ok l init_freq I1 Hy) as [T1 T2]. pose proof (tally_reserved l init_freq I1 Hy) as T3.
  apply (optimized_is_annexK2 _ (ho_len _ T1) (ho_nn _ T1)) with (P := reference); [| | |exact He].
  - rewrite I2 in T2. unfold tot in T2. rewrite T2. exact Hl.
  - rewrite T3, I3. reflexivity.
  - assert (Hu : forall v, In v (used (tally init_freq l)) <-> In v l).
    { intros v. unfold used. rewrite filter_In, in_zrange. split.
      - intros [Hv Hpos]. destruct (tally_pos l init_freq (Z.to_nat v) I1 Hy) as [H|H].
        + unfold zn in Hpos. lia.
        + rewrite I4 in H by lia. lia.
        + rewrite Z2Nat.id in H by lia. exact H.
      - intros Hv. rewrite Forall_forall in Hy. pose proof (Hy v Hv) as Hsv. unfold sym in Hsv. split; [lia|].
        pose proof (tally_in l init_freq v I1 ltac:(apply Forall_forall; exact Hy) Hv). lia. }
    split.
    + destruct l as [|a l]; [congruence|]. assert (In a (used (tally init_freq (a :: l)))) as Ha by (apply Hu; now left).
      destruct (used (tally init_freq (a :: l))); [destruct Ha|cbn [length]; lia].
    + assert (Hi : incl (used (tally init_freq l)) (filter (fun v => v mod 16 <=? 11) (zrange 256))).
      { intros v Hv. apply Hu in Hv. rewrite Forall_forall in Hs0. destruct (Hs0 v Hv) as [Hsv Hm]. unfold sym in Hsv.
        apply filter_In. split; [apply in_zrange; lia|lia]. }
      apply NoDup_incl_length in Hi; [|unfold used; apply NoDup_filter, zrange_NoDup].
      assert (El : (length (filter (fun v => (v mod 16 <=? 11)%Z) (zrange 256)) <= 254)%nat) by (vm_compute; lia). lia.
Qed.

Section File.
  Variable s : settings.
  Variable Hs : settings_wf s.
  Variable Hopt : s_optimize s = true.
  Variable op : operations.
  Variable F : list Z -> list Z.
  Variable T : transform.
  Variable Hop : op_ok op F.
  Variable HF : transform_is F T.
  Variable im : image.
  Variable pl : planes.
  Variable Him : image_ok im pl.
  Let e := enc_of s.
  Let He : enc_ok e (s_luma s) (s_chroma s) := enc_of_ok s Hs.
  Let color := im_color im.
  Let cs := init_components (e_sampling e) color.
  Let mh := max_h (e_sampling e) color.
  Let mv := max_v (e_sampling e) color.
  Let q0 := qtable_of (s_luma s) (e_quality e) true.
  Let q1 := qtable_of (s_chroma s) (e_quality e) false.
  Let uns := units im pl F mh mv q0 q1.
  Let bs (i : Z) : list (list Z) := match nth_error cs (Z.to_nat i) with Some c => map snd (uns (Z.to_nat i) c) | None => [] end.
  Let f := frame_for s color (im_width im) (im_height im).
  Let cf := coefficients_of T s color pl (im_width im) (im_height im).
  Let Hcs : comps_ok cs mh mv. Proof. apply init_components_ok. Qed.
  Let Hn : length cs = Z.to_nat (num_components color). Proof. apply init_components_length. Qed.
  Let Hprog' : match e_prog e with Some n => 2 <= n <= 64 | None => True end.
  Proof. exact (eo_prog _ _ _ He). Qed.

  Lemma enum_seq {A B} (l : list A) (g : Z * A -> list B) (h : nat -> list B) :
    (forall i a, nth_error l i = Some a -> g (Z.of_nat i, a) = h i) -> flat_map g (enumerate l) = flat_map h (seq 0 (length l)).
  Proof.
    unfold enumerate, zlen, zrange. rewrite Nat2Z.id.
    assert (G : forall (l : list A) k, (forall i a, nth_error l i = Some a -> g (Z.of_nat (k + i), a) = h (k + i)%nat) ->
      flat_map g (combine (map Z.of_nat (seq k (length l))) l) = flat_map h (seq k (length l))).
    { clear l. induction l as [|a l IH]; intros k H; [reflexivity|]. cbn [length seq map combine flat_map].
      rewrite <- (Nat.add_0_r k) at 1. rewrite (H 0%nat a eq_refl), Nat.add_0_r. f_equal. apply IH. intros i x Hi.
      replace (S k + i)%nat with (k + S i)%nat by lia. apply H. exact Hi. }
    apply (G l 0%nat).
  Qed.

  Lemma dc_lists d : all_dc cs bs d = dc_symbols_of cf f d.
  Proof.
    pose proof (all_dc_eq s F im pl d) as E. fold e color cs mh mv q0 q1 uns bs in E. rewrite E. clear E.
    unfold dc_symbols_of.
    assert (Ln : length (fr_comps f) = length cs) by (unfold f; rewrite <- frame_for_eq; unfold frame_of; cbn [fr_comps]; apply map_length).
    rewrite Ln. apply enum_seq. intros i c Hi. cbn [fst snd]. unfold with_table.
    pose proof (comp_at s im i c Hi) as Ec. fold color f in Ec. rewrite Ec. cbn [comp_of co_tq].
    destruct (c_qt c =? d); [|reflexivity]. symmetry. exact (counted_eq s Hs Hopt op F T Hop HF im pl Him i c Hi).
  Qed.

  (** The AC symbols of one scan *)
  Definition scan_ac (d : Z) (si : scan_info) : list Z :=
    flat_map (fun '(ci, y, x) => with_table f d ci (SSize.ac_symbols 0 (map (cf ci y x) (band (Z.max 1 (si_ss si)) (si_se si))))) (concat (mcus_of f si)).
  Lemma scan_ac_eq d ss se b i c : In (i, c) (enumerate cs) -> In b (count_bands e) -> (ss, se) = band_scan s b ->
    scan_ac d (one_scan ss se (i, c)) = if c_qt c =? d then band_syms b (bs i) else [].
  Proof.
    intros Hic Hb Es. destruct (in_enum_at s F im pl i c Hic) as [Hi Eb].
    change (nth_error cs (Z.to_nat i) = Some c) in Hi. change (bs i = map snd (uns (Z.to_nat i) c)) in Eb.
    unfold scan_ac, one_scan. cbn [fst si_ss si_se]. pose proof (scan_units s F im pl ss se _ c Hi) as Eu.
    fold e color cs mh mv q0 q1 uns f in Eu. rewrite Eu, Eb. clear Eu Eb.
    pose proof (units_fine s Hs op F T Hop HF im pl Him (Z.to_nat i) c Hi) as UF. fold e color cs mh mv q0 q1 uns cf in UF.
    pose proof (comp_at s im _ c Hi) as Ec. fold color f in Ec.
    unfold band_syms. induction UF as [|u us Hu UF IH]; [destruct (c_qt c =? d); reflexivity|].
    cbn [map flat_map]. rewrite IH.
    assert (Eac : (let '(ci, y, x) := fst u in with_table f d ci (SSize.ac_symbols 0 (map (cf ci y x) (band (Z.max 1 ss) se))))
      = if c_qt c =? d then ac_syms (slice (snd u) (fst b) (snd b)) 0 else []).
    { pose proof (band_values s Hs F T im pl b u (Z.to_nat i) Hb Hu) as Ev. rewrite <- Es in Ev. cbn [fst snd] in Ev. fold color cf in Ev. rewrite Ev.
      destruct u as [[[j y] x] blk]. cbn [fst snd]. destruct Hu as [Ej _]. cbn [ci_of fst snd] in Ej. subst j.
      unfold with_table. rewrite Ec. cbn [comp_of co_tq]. destruct (c_qt c =? d); [apply ac_symbols_eq|reflexivity]. }
    destruct (fst u) as [[ci y] x]. rewrite Eac. destruct (c_qt c =? d); reflexivity.
  Qed.
  Lemma scan_dc_eq d ic : scan_ac d (one_scan 0 0 ic) = [].
  Proof.
    unfold scan_ac, one_scan. cbn [si_ss si_se]. change (band (Z.max 1 0) 0) with (@nil Z).
    induction (concat _) as [|[[ci y] x] l IH]; [reflexivity|]. cbn [flat_map]. rewrite IH. cbn [map SSize.ac_symbols].
    unfold with_table. destruct (nth_error (fr_comps f) ci) as [c|]; [|reflexivity]. destruct (co_tq c =? d); reflexivity.
  Qed.
  Lemma ac_lists d : Permutation (all_ac e cs bs d) (ac_symbols_of cf f (scan_script s color) d).
  Proof.
    pose proof (all_ac_eq s F im pl d) as E. fold e color cs mh mv q0 q1 uns bs in E. rewrite E. clear E.
    unfold ac_symbols_of. change (Permutation (flat_map (fun ic => if c_qt (snd ic) =? d then flat_map (fun b => band_syms b (bs (fst ic))) (count_bands e) else []) (enumerate cs))
      (flat_map (scan_ac d) (scan_script s color))).
    rewrite <- (body_scans_eq s color Hs). unfold body_scans. fold e.
    change (init_components (s_sampling s) color) with cs. change (e_optimize e) with (s_optimize s). rewrite Hopt.
    assert (SA : forall ss se b i c, In (i, c) (enumerate cs) -> In b (count_bands e) -> (ss, se) = band_scan s b ->
      scan_ac d (one_scan ss se (i, c)) = if c_qt c =? d then band_syms b (bs i) else []) by (intros; now apply scan_ac_eq).
    assert (BS : forall b, band_scan s b = match e_prog e with Some _ => (fst b, snd b - 1) | None => (0, 63) end) by reflexivity.
    unfold count_bands in *. destruct (e_prog e) as [n|].
    - rewrite flat_map_app.
      assert (E0 : flat_map (scan_ac d) (map (one_scan 0 0) (enumerate cs)) = []).
      { rewrite flat_map_concat_map, map_map. rewrite (map_ext _ (fun _ => [])) by (intros; apply scan_dc_eq).
        clear. induction (enumerate cs) as [|a l IH]; [reflexivity|exact IH]. }
      rewrite E0. cbn [app].
      assert (E1 : flat_map (scan_ac d) (ac_scans cs (bands n))
        = flat_map (fun b => flat_map (fun ic => if c_qt (snd ic) =? d then band_syms b (bs (fst ic)) else []) (enumerate cs)) (bands n)).
      { unfold ac_scans.
        assert (G : forall l, incl l (bands n) -> flat_map (scan_ac d) (flat_map (fun b => map (one_scan (fst b) (snd b - 1)) (enumerate cs)) l)
          = flat_map (fun b => flat_map (fun ic => if c_qt (snd ic) =? d then band_syms b (bs (fst ic)) else []) (enumerate cs)) l); [|apply G, incl_refl].
        induction l as [|b l IH]; intros Hin; [reflexivity|]. cbn [flat_map]. rewrite flat_map_app, IH by (intros x Hx; apply Hin; now right). f_equal.
        rewrite flat_map_concat_map, map_map, flat_map_concat_map. f_equal. apply map_ext_in. intros [i c] Hic. cbn [fst snd].
        apply SA; [exact Hic|apply Hin; now left|symmetry; apply BS]. }
      rewrite E1, perm_flat_swap. apply perm_flat_ext. intros [i c] _. cbn [fst snd].
      destruct (c_qt c =? d); [reflexivity|]. clear. induction (bands n) as [|b l IH]; [reflexivity|exact IH].
    - cbn [orb]. rewrite (flat_map_concat_map (scan_ac d)), map_map, <- flat_map_concat_map. apply perm_flat_ext. intros [i c] Hic. cbn [fst snd flat_map].
      rewrite (SA 0 63 (1, 64) i c Hic (or_introl eq_refl)) by (symmetry; apply BS). rewrite app_nil_r. reflexivity.
  Qed.

  Variable Hfew : countable s (im_color im) (im_width im) (im_height im).
  Variables (d0 a0 d1 a1 : htab) (bd0 ba0 bd1 ba1 : table).
  Variable Ht : opt_tables reference im pl F e (s_luma s) (s_chroma s) d0 a0 d1 a1 bd0 ba0 bd1 ba1.
  Let t := tables_of d0 a0 d1 a1.
  Let t' := optimized_tables T s color pl (im_width im) (im_height im).

  Lemma tables_are d : In d (destinations f) -> tb_dc t d = tb_dc t' d /\ tb_ac t d = tb_ac t' d.
  Proof.
    intros Hd. destruct (tables_made s Hs Hopt op F Hop im pl Him Hfew _ _ _ _ _ _ _ _ Ht) as [[T0 T0'] T1].
    pose proof (bs_ok im pl Him op F Hop e _ _ He) as B.
    pose proof (bs_idx reference im pl F e (s_luma s) (s_chroma s)) as BI.
    pose proof (fun i c Hi => proj2 (bs_len im pl Him F e (s_luma s) (s_chroma s) Hopt i c Hi)) as BN.
    assert (BT : block_total cs bs = block_count f).
    { pose proof (total_eq im pl Him F e (s_luma s) (s_chroma s) Hopt) as E.
      change (block_total cs bs = frame_blocks (frame_of (match e_prog e with Some _ => true | None => false end) (im_width im) (im_height im) cs)) in E.
      rewrite E. unfold cs, e, color. rewrite frame_for_eq. reflexivity. }
    assert (G : forall d x y bx by_, (exists i c, In (i, c) (enumerate cs) /\ c_dc c = d /\ c_ac c = d) ->
      table_for_syms reference (all_dc cs bs d) x bx -> table_for_syms reference (all_ac e cs bs d) y by_ ->
      huff_of x = tb_dc t' d /\ huff_of y = tb_ac t' d).
    { intros d' x y bx by_ Hd' Tx Ty. destruct (all_dc_ok cs _ bs BI B BN d') as [S1 L1]. destruct (all_ac_ok e Hprog' cs _ bs BI B BN d') as [S2 L2].
      destruct (nonempty s Hs Hopt op F Hop im pl Him d' Hd') as [N1 N2].
      rewrite BT in L1, L2. pose proof Hfew as HB. unfold countable in HB. fold color f in HB.
      pose proof (dc_lists d') as P1. pose proof (ac_lists d') as P2.
      split; symmetry; [apply (made_is_annexK2 (all_dc cs bs d') _ x bx)|apply (made_is_annexK2 (all_ac e cs bs d') _ y by_)]; try assumption.
      - rewrite P1. reflexivity.
      - clear - L1 HB. revert L1 HB. generalize (block_count f) (Z.of_nat (length (all_dc cs bs d'))). clear. intros; lia.
      - clear - L2 HB. revert L2 HB. generalize (block_count f) (Z.of_nat (length (all_ac e cs bs d'))). clear. intros; lia. }
    assert (Ln : length (fr_comps f) = length cs) by (unfold f; rewrite <- frame_for_eq; unfold frame_of; cbn [fr_comps]; apply map_length).
    unfold destinations in Hd. rewrite Ln in Hd. destruct (3 <=? length cs)%nat eqn:E3.
    - assert (L1 : zlen cs <> 1) by (unfold zlen; apply Nat.leb_le in E3; lia). destruct (T1 L1) as [T2 T2'].
      destruct Hd as [<-|[<-|[]]]; unfold t.
      + exact (G 0 d0 a0 bd0 ba0 (uses_table0 _ _) T0 T0').
      + exact (G 1 d1 a1 bd1 ba1 (uses_table1 _ _ L1) T2 T2').
    - destruct Hd as [<-|[]]. unfold t. exact (G 0 d0 a0 bd0 ba0 (uses_table0 _ _) T0 T0').
  Qed.
End File.
