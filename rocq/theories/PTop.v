(** The three coding modes and the whole file. *)
From Verif Require Export PWhole.
From Verif Require Import T81.
From Coq Require Import ZifyBool ZifyNat.
Local Ltac Zify.zify_post_hook ::= Z.div_mod_to_equations.

Lemma path_inv S U ri (s0 : S) (next : S -> U -> S) (good : S -> U -> Prop) (I : S -> Prop) us :
  I s0 -> (forall s u, In u us -> I s -> good s u /\ I (next s u)) ->
  forall t s, I s -> path S U ri s0 next good t s us.
Proof.
  intros H0. induction us as [|u us IH]; intros Hs t s Hi; cbn [path]; [exact Logic.I|].
  set (s1 := if (0 <? ri) && (t =? 0) then s0 else s).
  assert (H1 : I s1) by (unfold s1; destruct ((0 <? ri) && (t =? 0)); assumption).
  destruct (Hs s1 u (or_introl eq_refl) H1) as [Hg Hn]. split; [exact Hg|].
  apply IH; [|exact Hn]. intros s' u' Hu'. apply Hs. now right.
Qed.

Lemma prog_bands_ret P scans : plat_ok P -> 2 <= scans <= 64 -> prog_bands P scans = Ret (bands scans).
Proof.
  intros HP Hs. unfold prog_bands, ck_usize. rewrite ck_u_ret.
  2:{ destruct HP as [E|E]; rewrite E; lia. }
  cbn [bind]. replace (scans - 1 =? 0) with false by lia. reflexivity.
Qed.
Lemma opt_bands_ret P scans : plat_ok P -> 2 <= scans <= 64 -> opt_bands P scans = Ret (bands scans).
Proof. exact (prog_bands_ret P scans). Qed.

Lemma zall (f : Z -> bool) a b : forallb f (map (fun k => a + k) (zrange (b - a))) = true ->
  forall k, a <= k < b -> f k = true.
Proof.
  intros Hf k Hk. rewrite forallb_forall in Hf. apply Hf. apply in_map_iff. exists (k - a).
  split; [lia|]. apply in_zrange. lia.
Qed.

Lemma bands_ok scans : 2 <= scans <= 33 -> Forall band_ok (bands scans).
Proof.
  intros Hs. assert (G : forallb (fun b => (1 <=? fst b) && (fst b <? snd b) && (snd b <=? 64)) (bands scans) = true).
  { apply (zall (fun scans => forallb (fun b => (1 <=? fst b) && (fst b <? snd b) && (snd b <=? 64)) (bands scans)) 2 34);
      [vm_compute; reflexivity|lia]. }
  apply Forall_forall. intros b Hb. rewrite forallb_forall in G. specialize (G b Hb). unfold band_ok. lia.
Qed.

Lemma bands_partition scans k : 2 <= scans <= 64 -> 1 <= k < 64 ->
  exists b, filter (fun b => (fst b <=? k) && (k <? snd b)) (bands scans) = [b].
Proof.
  intros Hs Hk.
  assert (G : forallb (fun k => Nat.eqb (length (filter (fun b => (fst b <=? k) && (k <? snd b)) (bands scans))) 1)
               (map (fun k => 1 + k) (zrange (64 - 1))) = true).
  { apply (zall (fun scans => forallb (fun k => Nat.eqb (length (filter (fun b => (fst b <=? k) && (k <? snd b)) (bands scans))) 1)
               (map (fun k => 1 + k) (zrange (64 - 1)))) 2 65); [vm_compute; reflexivity|lia]. }
  pose proof (zall _ 1 64 G k Hk) as G1. cbv beta in G1. apply Nat.eqb_eq in G1.
  destruct (filter _ _) as [|b [|]] eqn:E; try discriminate. now exists b.
Qed.

Section Top.
  Variable P : platform.
  Variable HP : plat_ok P.
  Variable im : image.
  Variable pl : planes.
  Variable Him : image_ok im pl.
  Variable op : operations.
  Variable F : list Z -> list Z.
  Variable Hop : op_ok op F.
  Let W := im_width im.
  Let H := im_height im.
  Let n := Z.to_nat (num_components (im_color im)).
  Variable Hfit : W * H < 2 ^ (ubits P - 1).
  Variable cs : list component.
  Variables mh mv : Z.
  Variable Hcs : comps_ok cs mh mv.
  Variable Hn : length cs = n.
  Variables q0 q1 : qtable.
  Variable Hq0 : qtable_ok q0.
  Variable Hq1 : qtable_ok q1.
  Variable Hz0 : Forall (fun z => 0 < qt_get q0 z) ZIGZAG.
  Variable Hz1 : Forall (fun z => 0 < qt_get q1 z) ZIGZAG.
  Variable e : encoder.
  Let ri := restart_of e.
  Variable Hri : 0 <= ri < 2 ^ 16.
  Variable Hri1 : e_restart e <> Some 0.
  Variables (d0 a0 d1 a1 : htab) (bd0 ba0 bd1 ba1 : table).
  Let ht := [(d0, a0); (d1, a1)].
  Variable Vd0 : valid_tab d0 bd0.
  Variable Va0 : valid_tab a0 ba0.
  Variable Vd1 : (3 <= n)%nat -> valid_tab d1 bd1.
  Variable Va1 : (3 <= n)%nat -> valid_tab a1 ba1.

  Let prg := match e_prog e with Some _ => true | None => false end.
  Let z0 := map (qt_get q0) ZIGZAG.
  Let z1 := map (qt_get q1) ZIGZAG.
  Let hst := hstate (frame_of prg W H cs) z0 z1 (slots n bd0 bd1) (slots n ba0 ba1) ri.
  Let blk := cblock im pl F mh mv q0 q1.
  Let uns := units im pl F mh mv q0 q1.
  Definition all_blocks := map (fun '(i, c) => map snd (uns (Z.to_nat i) c)) (enumerate cs).

  Lemma blk_ok i c y x : nth_error cs i = Some c -> 0 <= y -> 0 <= x -> block_ok (blk i c y x).
  Proof.
    intros Hi Hy Hx. pose proof (cs_comp _ _ _ Hcs _ _ Hi) as Hc.
    pose proof (stride_pos mh (c_h c) (cs_mh _ _ _ Hcs) (ck_h _ _ _ _ _ Hc)) as Hhs.
    pose proof (stride_pos mv (c_v c) (cs_mv _ _ _ Hcs) (ck_v _ _ _ _ _ Hc)) as Hvs.
    apply (coef_block_ok im pl Him op F Hop); unfold hstride, vstride; try lia.
    - fold n. rewrite <- Hn. apply nth_error_Some. rewrite Hi. discriminate.
    - now apply qsel_ok.
  Qed.

  (** A result of coding the scans: state after them. *)
  Definition coded (body : prog bitw) (apps : list (Z * list Z)) (scs : list scan_info) : Prop :=
    exists log, dec body (bitw_new P) (astate apps) (hst apps log scs) /\
                    log_ok im pl F cs mh mv q0 q1 log.

  Lemma sequential_coded apps : e_prog e = None ->
    emits (tables_for P e cs all_blocks) [] ht ->
    seq_paths im pl F cs mh mv q0 q1 e d0 a0 d1 a1 bd0 ba0 bd1 ba1 ->
    coded (encode_image_sequential P op e cs im q0 q1 (bitw_new P)) apps (map (one_scan 0 63) (enumerate cs)).
  Proof.
    intros Hp Ht Hpaths.
    exists (seq_log im pl F mh mv q0 q1 (enumerate cs)). split.
    - unfold encode_image_sequential.
      eapply dec_bind_emits; [apply (blocks_emits P HP im pl Him op F Hop Hfit cs mh mv Hcs Hn q0 q1 Hq0 Hq1 e d1 a1 bd1 ba1 Vd1 Va1)|].
      eapply dec_bind_emits; [exact Ht|].
      eapply dec_bind; [apply (header_dec P im pl Him cs mh mv Hcs Hn q0 q1 Hz0 Hz1 e Hri Hri1 d0 a0 d1 a1 bd0 ba0 bd1 ba1 Vd0 Va0 Vd1 Va1)|].
      apply (seq_dec P HP im pl Him F cs mh mv Hcs Hn q0 q1 e Hri d0 a0 d1 a1 bd0 ba0 bd1 ba1 Vd1 Va1 apps); [|exact Hpaths].
      now rewrite Hp.
    - apply seq_log_ok. exact blk_ok.
  Qed.

  Lemma progressive_coded scans apps : e_prog e = Some scans -> 2 <= scans <= 33 ->
    emits (tables_for P e cs all_blocks) [] ht ->
    dc_paths im pl F cs mh mv q0 q1 e d0 d1 bd0 bd1 ->
    ac_paths im pl F cs mh mv q0 q1 a0 a1 ba0 ba1 (bands scans) ->
    coded (encode_image_progressive P op e scans cs im q0 q1 (bitw_new P)) apps
      (map (one_scan 0 0) (enumerate cs) ++ ac_scans cs (bands scans)).
  Proof.
    intros Hp Hs Ht Hdc Hac.
    exists (dc_log im pl F mh mv q0 q1 (enumerate cs) ++ ac_logs im pl F cs mh mv q0 q1 (bands scans)).
    split.
    - unfold encode_image_progressive.
      eapply dec_bind_emits; [apply (blocks_emits P HP im pl Him op F Hop Hfit cs mh mv Hcs Hn q0 q1 Hq0 Hq1 e d1 a1 bd1 ba1 Vd1 Va1)|].
      eapply dec_bind_emits; [exact Ht|].
      eapply dec_bind; [apply (header_dec P im pl Him cs mh mv Hcs Hn q0 q1 Hz0 Hz1 e Hri Hri1 d0 a0 d1 a1 bd0 ba0 bd1 ba1 Vd0 Va0 Vd1 Va1)|].
      eapply dec_bind.
      { apply (dc_dec P HP im pl Him F cs mh mv Hcs Hn q0 q1 e Hri d0 a0 d1 a1 bd0 ba0 bd1 ba1 Vd1 Va1 apps); [|exact Hdc].
        now rewrite Hp. }
      rewrite prog_bands_ret by (assumption || lia). cbn [bind].
      eapply dec_ext.
      2:{ apply (ac_dec P HP im pl Him F cs mh mv Hcs Hn q0 q1 e Hri d0 a0 d1 a1 bd0 ba0 bd1 ba1 Vd1 Va1 apps (bands scans));
            [now rewrite Hp|now apply bands_ok|exact Hac]. }
      apply foldM_ext. intros w [s en] _. reflexivity.
    - apply prog_log_ok; [exact blk_ok|now apply bands_ok|]. intros k Hk. apply bands_partition; lia.
  Qed.

  (** Complete tables can code everything. *)
  Variable C0 : complete d0 a0 bd0 ba0.
  Variable C1 : complete d1 a1 bd1 ba1.

  Lemma sel2_comp i : complete (sel2 d0 d1 i) (sel2 a0 a1 i) (sel2 bd0 bd1 i) (sel2 ba0 ba1 i).
  Proof. unfold sel2. now destruct (i =? 0). Qed.

  Lemma complete_ac_syms i b s en : block_ok b -> 1 <= s -> en <= 64 ->
    Forall (codes (sel2 a0 a1 i) (sel2 ba0 ba1 i)) (ac_syms (slice b s en) 0).
  Proof.
    intros Hb Hs He. apply (ac_syms_complete _ _ _ _ _ (sel2_comp i)); [|lia].
    now apply block_ok_slice.
  Qed.

  Lemma complete_seq_paths : seq_paths im pl F cs mh mv q0 q1 e d0 a0 d1 a1 bd0 ba0 bd1 ba1.
  Proof.
    intros i c Hi. apply (path_inv _ _ _ _ _ _ (fun s => -1024 <= s <= 1023)); [lia| |lia].
    intros s u Hu Hs. destruct (units_ok im pl Him op F Hop cs mh mv Hcs Hn q0 q1 Hq0 Hq1 i c u Hi Hu) as [Eu Hb].
    split; [|apply Hb]. split; [exact Eu|]. split; [exact Hb|]. split.
    - apply (dc_complete _ _ _ _ _ _ (sel2_comp (c_qt c))); assumption.
    - apply complete_ac_syms; [exact Hb|lia|lia].
  Qed.

  Lemma complete_dc_paths : dc_paths im pl F cs mh mv q0 q1 e d0 d1 bd0 bd1.
  Proof.
    intros i c Hi. apply (path_inv _ _ _ _ _ _ (fun s => -1024 <= s <= 1023)); [lia| |lia].
    intros s u Hu Hs. destruct (units_ok im pl Him op F Hop cs mh mv Hcs Hn q0 q1 Hq0 Hq1 i c u Hi Hu) as [Eu Hb].
    split; [|apply Hb]. split; [exact Eu|]. split; [exact Hb|].
    apply (dc_complete _ _ _ _ _ _ (sel2_comp (c_qt c))); assumption.
  Qed.

  Lemma complete_ac_paths bs : Forall band_ok bs -> ac_paths im pl F cs mh mv q0 q1 a0 a1 ba0 ba1 bs.
  Proof.
    intros Hbs i c b Hi Hb. apply Forall_forall. intros u Hu.
    destruct (units_ok im pl Him op F Hop cs mh mv Hcs Hn q0 q1 Hq0 Hq1 i c u Hi Hu) as [Eu Hbl].
    split; [exact Eu|]. split; [exact Hbl|].
    rewrite Forall_forall in Hbs. destruct (Hbs b Hb). apply complete_ac_syms; [exact Hbl|lia|lia].
  Qed.


  Lemma table_for_all (l : list component) sl f : forall pos i c, nth_error l i = Some c ->
    table_for sl (map (fun k => (fst k, f (snd k))) (combine (seq pos (length l)) l)) (pos + i) = slot sl (f c).
  Proof.
    induction l as [|d l IH]; intros pos [|i] c Hi; try discriminate; cbn [length seq combine map fst snd table_for].
    - inversion Hi; subst. rewrite Nat.add_0_r, Nat.eqb_refl. reflexivity.
    - replace (pos =? pos + S i)%nat with false by lia. replace (pos + S i)%nat with (S pos + i)%nat by lia.
      apply IH. exact Hi.
  Qed.

  Lemma interleaved_coded apps : e_prog e = None -> e_huff e = ht ->
    (forall c, cs = [c] -> c_h c = 1 /\ c_v c = 1) ->
    (length cs = 1%nat \/ fold_right Z.add 0 (map (fun c => c_h c * c_v c) cs) <= 10) ->
    coded (encode_image_interleaved P op e cs im q0 q1 (bitw_new P)) apps
      [{| si_comps := seq 0 (length cs); si_ss := 0; si_se := 63 |}].
  Proof.
    intros Hp Hh H1 H10.
    set (log := flat_map (ment im pl F cs mh mv q0 q1) (grid (mrows im mv) (mcols im mh))).
    exists log. split.
    2:{ apply inter_log_ok; [exact blk_ok|exact Hcs]. }
    assert (Hprg : prg = false) by (unfold prg; now rewrite Hp).
    unfold encode_image_interleaved. rewrite Hh.
    eapply dec_bind; [apply (header_dec P im pl Him cs mh mv Hcs Hn q0 q1 Hz0 Hz1 e Hri Hri1 d0 a0 d1 a1 bd0 ba0 bd1 ba1 Vd0 Va0 Vd1 Va1)|].
    fold prg. fold W H n ri. fold z0 z1. fold hst.
    rewrite (cs_max _ _ _ Hcs). fold W H.
    assert (Hin : forall k, In k (combine (seq 0 (length cs)) cs) -> In (snd k) cs).
    { intros [a b] Hk. now apply in_combine_r in Hk. }
    assert (Elen : length (combine (seq 0 (length cs)) cs) = length cs).
    { rewrite combine_length, seq_length. lia. }
    set (st := hst apps [] []).
    set (sc := scan_of prg st (combine (seq 0 (length cs)) cs) 0 63).
    assert (Htd : forall i c, nth_error cs i = Some c -> sc_dc sc i = Some (sel2 bd0 bd1 (c_dc c))).
    { intros i c Hi. unfold sc, scan_of. cbn [sc_dc].
      pose proof (table_for_all cs (st_dc st) c_dc 0 i c Hi) as E. cbn [Nat.add] in E. rewrite E.
      destruct (c_tabs cs mh mv Hcs c (nth_error_In _ _ Hi)) as [E1 E2]. rewrite E1.
      apply (slot_sel2 P im cs mh mv Hcs Hn e d1 a1 bd1 ba1 Vd1 Va1). now apply (nth_error_In _ i). }
    assert (Hta : forall i c, nth_error cs i = Some c -> sc_ac sc i = Some (sel2 ba0 ba1 (c_ac c))).
    { intros i c Hi. unfold sc, scan_of. cbn [sc_ac].
      pose proof (table_for_all cs (st_ac st) c_ac 0 i c Hi) as E. cbn [Nat.add] in E. rewrite E.
      destruct (c_tabs cs mh mv Hcs c (nth_error_In _ _ Hi)) as [E1 E2]. rewrite E2.
      apply (slot_sel2 P im cs mh mv Hcs Hn e d1 a1 bd1 ba1 Vd1 Va1). now apply (nth_error_In _ i). }
    pose proof (dec_scan P prg W H cs mh mv st (combine (seq 0 (length cs)) cs) None 0 63
      (fun w => let* _ := ck_usize P (ceil_div W (8 * mh) * 8 * mh * 8 * mv) in
                let* row0 := init_rows cs in
                inter_loop P ri im op cs mh mv q0 q1 d0 a0 d1 a1 w) log Hcs eq_refl) as HD.
    rewrite combine_snd in HD by apply seq_length.
    assert (Efst : map fst (combine (seq 0 (length cs)) cs) = seq 0 (length cs)).
    { clear. generalize 0%nat. induction cs as [|c l IH]; intros a; [reflexivity|].
      cbn [length seq combine map fst]. now rewrite IH. }
    rewrite Efst in HD.
    eapply dec_ext; [|apply HD]; clear HD.
    - apply exec_bind_ext. intros _. apply exec_bind_ext. intros _.
      unfold init_rows. destruct (cs_len _ _ _ Hcs) as [E|[E|E]]; rewrite E; reflexivity.
    - apply (selects_all cs mh mv Hcs).
    - rewrite Elen. pose proof (cs_len _ _ _ Hcs). lia.
    - exact Hin.
    - reflexivity.
    - lia.
    - lia.
    - unfold spectral_ok. rewrite Hprg. reflexivity.
    - rewrite Elen. destruct H10 as [E|E]; [now left|right].
      rewrite <- (map_map snd (fun c => c_h c * c_v c)), combine_snd by apply seq_length. exact E.
    - intros k Hk. unfold st, hst, hstate. cbn [st_qt].
      apply (slot_q im cs mh mv Hcs q0 q1 e bd0 ba0 bd1 ba1 apps [] []). now apply Hin.
    - intros _ k Hk. cbn [st hst hstate st_dc]. destruct (c_tabs cs mh mv Hcs _ (Hin k Hk)) as [E1 E2].
      rewrite E1. rewrite (slot_sel2 P im cs mh mv Hcs Hn e d1 a1 bd1 ba1 Vd1 Va1); [reflexivity|now apply Hin].
    - intros _ k Hk. cbn [st hst hstate st_ac]. destruct (c_tabs cs mh mv Hcs _ (Hin k Hk)) as [E1 E2].
      rewrite E2. rewrite (slot_sel2 P im cs mh mv Hcs Hn e d1 a1 bd1 ba1 Vd1 Va1); [reflexivity|now apply Hin].
    - intros Hne. lia.
    - fold sc.
      destruct (inter_loop_ok P HP ri Hri im pl Him op F Hop cs mh mv Hcs Hn q0 q1 Hq0 Hq1
                  d0 a0 d1 a1 bd0 ba0 bd1 ba1 C0 C1 sc eq_refl eq_refl Htd Hta) as (o & Ho & Hbo & Hdo).
      exists o. split; [|split; [exact Hbo|]].
      + eapply emits_bind0.
        { apply emits_ck_u. pose proof (io_width _ _ Him) as HW. fold W in HW.
          pose proof (cs_mh _ _ _ Hcs) as Hmh. pose proof (cs_mv _ _ _ Hcs) as Hmv.
          pose proof (ceil_div_spec W (8 * mh) ltac:(lia)) as S1.
          assert (2 ^ 32 <= 2 ^ ubits P) by (apply Z.pow_le_mono_r; [lia|destruct HP as [E|E]; rewrite E; lia]).
          set (nc := ceil_div W (8 * mh)) in *. clearbody nc. clear - HW Hmh Hmv S1 H0. nia. }
        eapply emits_bind0.
        { unfold init_rows. destruct (cs_len _ _ _ Hcs) as [E|[E|E]]; rewrite E; apply emits_ret. }
        exact Ho.
      + intros mk rest Hmk. specialize (Hdo mk rest Hmk).
        replace (map (fun k => (fst k, comp_of (snd k))) (combine (seq 0 (length cs)) cs)) with
          (combine (seq 0 (length cs)) (map comp_of cs)).
        2:{ clear. generalize 0%nat. induction cs as [|c l IH]; intros a; [reflexivity|].
            cbn [length seq combine map fst snd]. now rewrite IH. }
        pose proof (scan_mcus_eq im pl F cs mh mv Hcs Hn q0 q1 bd0 ba0 bd1 ba1 sc Htd Hta prg H1) as Em.
        fold W H in Em. rewrite Em. rewrite Hn. exact Hdo.
  Qed.
End Top.
