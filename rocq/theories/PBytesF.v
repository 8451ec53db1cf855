(** The exact bytes of whole files. *)
From Verif Require Export PBytesI.
From Verif Require Import T81 SFile SEncode PSegments PSos PFile PTop PEncode PApi PRound.
From Coq Require Import ZifyBool ZifyNat.
Local Ltac Zify.zify_post_hook ::= Z.div_mod_to_equations.

Lemma length_field_be p : zlen p <= 65533 -> length_field p = be_bytes 2 (zlen p + 2).
Proof. intros H. pose proof (zlen_nonneg p). rewrite be2 by lia. reflexivity. Qed.
Lemma render_seg m p : zlen p <= 65533 -> render (Segment m p) = seg m p.
Proof. intros H. cbn [render]. rewrite length_field_be by assumption. reflexivity. Qed.
Lemma render_scan p ds : zlen p <= 65533 -> render (Scan p ds) = seg 218 p ++ coded_data 0 ds.
Proof.
  intros H. cbn [render]. rewrite length_field_be by assumption. unfold seg. rewrite !app_comm_cons, <- !app_assoc. reflexivity.
Qed.

Lemma emits_foldM {A X} (f : A -> X -> prog A) (g : X -> list Z) a l :
  (forall x, In x l -> emits (f a x) (g x) a) -> emits (foldM f l a) (flat_map g l) a.
Proof.
  induction l as [|x l IH]; intros H; [apply emits_ret|]. cbn [foldM flat_map].
  eapply emits_bind; [apply H; now left|]. apply IH. intros y Hy. apply H. now right.
Qed.

Lemma bands_ok64 scans : 2 <= scans <= 64 ->
  Forall (fun b => 1 <= fst b /\ fst b <= snd b <= 64) (bands scans).
Proof.
  intros Hs. assert (G : forallb (fun b => (1 <=? fst b) && (fst b <=? snd b) && (snd b <=? 64)) (bands scans) = true).
  { apply (zall (fun scans => forallb (fun b => (1 <=? fst b) && (fst b <=? snd b) && (snd b <=? 64)) (bands scans)) 2 65);
      [vm_compute; reflexivity|lia]. }
  apply Forall_forall. intros b Hb. rewrite forallb_forall in G. specialize (G b Hb). lia.
Qed.

Definition huff_of (t : htab) : huff := (h_length t, h_values t).
Definition tables_of (d0 a0 d1 a1 : htab) : tables :=
  {| tb_dc d := if d =? 0 then huff_of d0 else huff_of d1;
     tb_ac d := if d =? 0 then huff_of a0 else huff_of a1 |}.

Section FileBytes.
  Variable P : platform.
  Variable HP : plat_ok P.
  Variable im : image.
  Variable pl : planes.
  Variable Him : image_ok im pl.
  Variable op : operations.
  Variable F : list Z -> list Z.
  Variable Hop : op_ok op F.
  Let W := im_width im.
  Let H := im_height im.
  Let n := Z.to_nat (num_components (im_color im)).
  Variable Hfit : W * H < 2 ^ (ubits P - 1).
  Variable cs : list component.
  Variables mh mv : Z.
  Variable Hcs : comps_ok cs mh mv.
  Variable Hn : length cs = n.
  Variables q0 q1 : qtable.
  Variable Hq0 : qtable_ok q0.
  Variable Hq1 : qtable_ok q1.
  Variable e : encoder.
  Let ri := restart_of e.
  Variable Hri : 0 <= ri < 2 ^ 16.
  Variable Hri1 : e_restart e <> Some 0.
  Variables (d0 a0 d1 a1 : htab) (bd0 ba0 bd1 ba1 : table).
  Let ht := [(d0, a0); (d1, a1)].
  Variable Vd0 : valid_tab d0 bd0.
  Variable Va0 : valid_tab a0 ba0.
  Variable Vd1 : (3 <= n)%nat -> valid_tab d1 bd1.
  Variable Va1 : (3 <= n)%nat -> valid_tab a1 ba1.
  Let prg := match e_prog e with Some _ => true | None => false end.
  Let f := frame_of prg W H cs.
  Let blk := cblock im pl F mh mv q0 q1.
  Let uns := units im pl F mh mv q0 q1.
  Let blocks := map (fun '(i, c) => map snd (uns (Z.to_nat i) c)) (enumerate cs).
  Let t := tables_of d0 a0 d1 a1.
  Variable cf : coefficients.
  Variable Hcf : forall i c y x k, nth_error cs i = Some c -> 0 <= k < 64 -> zn (blk i c y x) k = cf i y x k.

  Definition q_part (dest : Z) (q : qtable) : part := Segment 219 (dest :: map (qt_get q) ZIGZAG).
  Definition header_parts : list part :=
    [sof f; q_part 0 q0; q_part 1 q1; dht 0 0 (tb_dc t 0); dht 1 0 (tb_ac t 0)] ++
    (if (3 <=? length (fr_comps f))%nat then [dht 0 1 (tb_dc t 1); dht 1 1 (tb_ac t 1)] else []) ++
    dri ri.
  Definition scan_part (si : scan_info) : part := Scan (scan_header f si) (scan_data t f ri cf si).

  Lemma n4 : (n <= 4)%nat. Proof. apply n_le_4. Qed.
  Lemma smalls : Forall comp_small cs. Proof. exact (comps_small cs mh mv Hcs). Qed.

  Lemma u16_be v : 0 <= v < 65536 -> u16_bytes v = be_bytes 2 v.
  Proof. intros Hv. now rewrite be2. Qed.

  Lemma sof_eq : sof f = Segment (if prg then 194 else 192) (sof_payload W H cs).
  Proof.
    pose proof (io_width _ _ Him) as HW. pose proof (io_height _ _ Him) as HH. fold W in HW. fold H in HH.
    unfold sof, f, frame_of. cbn [fr_progressive fr_height fr_width fr_comps].
    rewrite !u16_be by lia. rewrite map_length. unfold sof_payload. f_equal. do 4 f_equal.
    clear. induction cs as [|c l IH]; [reflexivity|]. cbn [map flat_map]. now rewrite IH.
  Qed.

  Lemma sof_len : zlen (sof_payload W H cs) <= 65533.
  Proof.
    unfold sof_payload, zlen. cbn [length]. rewrite !app_length, !be_bytes_length. cbn [length].
    assert (E : length (flat_map frame_comp_bytes cs) = (3 * length cs)%nat).
    { clear. induction cs as [|c l IH]; [reflexivity|]. cbn [flat_map frame_comp_bytes app length]. lia. }
    rewrite E. pose proof n4. lia.
  Qed.

  Lemma dht_len class dest tab tb : valid_tab tab tb -> zlen ((16 * class + dest) :: h_length tab ++ h_values tab) <= 65533.
  Proof.
    intros V. destruct (valid_tab_lengths tab tb V) as (H16 & H256 & _). unfold zlen in *. cbn [length].
    rewrite app_length. lia.
  Qed.

  Lemma header_bytes : emits (enc_write_frame_header P e cs ht im q0 q1) (flat_map render header_parts) tt.
  Proof.
    assert (Hl : (length cs <= 4)%nat) by (pose proof n4; lia).
    unfold header_parts, enc_write_frame_header. rewrite sof_eq. cbn [app flat_map].
    eapply emits_bind; [rewrite render_seg by apply sof_len; apply emits_write_sof; [apply smalls|exact Hl]|].
    eapply emits_bind; [unfold q_part; rewrite render_seg by (unfold zlen; cbn; lia); apply emits_write_q; lia|].
    eapply emits_bind; [unfold q_part; rewrite render_seg by (unfold zlen; cbn; lia); apply emits_write_q; lia|].
    eapply emits_bind0; [apply emits_ret|]. cbn [fst snd].
    eapply emits_bind.
    { unfold dht. rewrite render_seg by exact (dht_len 0 0 d0 bd0 Vd0).
      exact (emits_write_h P 0 0 d0 bd0 Vd0 (or_introl eq_refl) (or_introl eq_refl)). }
    eapply emits_bind.
    { unfold dht. rewrite render_seg by exact (dht_len 1 0 a0 ba0 Va0).
      exact (emits_write_h P 1 0 a0 ba0 Va0 (or_intror eq_refl) (or_introl eq_refl)). }
    rewrite flat_map_app.
    assert (En : (3 <=? num_components (im_color im)) = (3 <=? length (fr_comps f))%nat).
    { unfold f, frame_of. cbn [fr_comps]. rewrite map_length, Hn. unfold n. lia. }
    rewrite En. eapply emits_bind.
    - destruct (3 <=? length (fr_comps f))%nat eqn:E3; [|apply emits_ret].
      assert (H3 : (3 <= n)%nat).
      { unfold f, frame_of in E3. cbn [fr_comps] in E3. rewrite map_length, Hn in E3. lia. }
      eapply emits_bind0; [apply emits_ret|]. cbn [fst snd flat_map]. rewrite app_nil_r.
      eapply emits_bind.
      + unfold dht. rewrite render_seg by exact (dht_len 0 1 d1 bd1 (Vd1 H3)).
        exact (emits_write_h P 0 1 d1 bd1 (Vd1 H3) (or_introl eq_refl) (or_intror eq_refl)).
      + unfold dht. rewrite render_seg by exact (dht_len 1 1 a1 ba1 (Va1 H3)).
        exact (emits_write_h P 1 1 a1 ba1 (Va1 H3) (or_intror eq_refl) (or_intror eq_refl)).
    - unfold dri, ri, restart_of in *. destruct (e_restart e) as [r|]; [|apply emits_ret].
      replace (r =? 0) with false by (assert (r <> 0) by congruence; lia).
      cbn [flat_map]. rewrite app_nil_r, render_seg by (unfold zlen; cbn; lia).
      rewrite u16_be by lia. unfold seg. change (zlen (be_bytes 2 r) + 2) with 4.
      change (255 :: 221 :: be_bytes 2 4 ++ be_bytes 2 r) with ([255; 221] ++ be_bytes 2 4 ++ be_bytes 2 r).
      unfold write_dri. eapply emits_bind; [apply emits_write_all|].
      eapply emits_bind; [apply emits_write_all|apply emits_write_all].
  Qed.

  (** Tables of components. *)
  Lemma table_of_valid tab tb : valid_tab tab tb -> table_of (huff_of tab) = tb.
  Proof. intros V. unfold table_of, huff_of. cbn [fst snd]. now rewrite (vt_build _ _ V). Qed.

  Lemma used_tables i c : nth_error cs i = Some c ->
    comp_table f (tb_dc t) i = sel2 bd0 bd1 (c_qt c) /\ comp_table f (tb_ac t) i = sel2 ba0 ba1 (c_qt c) /\
    uniq_syms (sel2 bd0 bd1 (c_qt c)) /\ uniq_syms (sel2 ba0 ba1 (c_qt c)).
  Proof.
    intros Hi. unfold comp_table, f, frame_of. cbn [fr_comps].
    rewrite (map_nth_error comp_of i cs Hi). unfold comp_of at 1 2. cbn [co_tq].
    pose proof (cs_comp _ _ _ Hcs _ _ Hi) as Hc. rewrite Hn in Hc.
    unfold t, tables_of. cbn [tb_dc tb_ac].
    destruct (ck_qt _ _ _ _ _ Hc) as [E|[E E3]]; rewrite E; unfold sel2; cbn [Z.eqb Pos.eqb].
    - rewrite (table_of_valid _ _ Vd0), (table_of_valid _ _ Va0).
      repeat split; eapply valid_tab_uniq; eassumption.
    - rewrite (table_of_valid _ _ (Vd1 E3)), (table_of_valid _ _ (Va1 E3)).
      repeat split; eapply valid_tab_uniq; eauto.
  Qed.

  Lemma agrees_units i c : nth_error cs i = Some c -> Forall (fun u => ci_of u = i /\ agrees cf u) (uns i c).
  Proof.
    intros Hi. apply Forall_forall. intros u Hu.
    destruct (units_ok im pl Him op F Hop cs mh mv Hcs Hn q0 q1 Hq0 Hq1 i c u Hi Hu) as [Eu Hb].
    split; [exact Eu|]. split; [apply Hb|].
    apply in_map_iff in Hu as ([y x] & <- & Hg). cbn [fst snd]. intros k Hk. now apply Hcf.
  Qed.
  Lemma blocks_units i c : nth_error cs i = Some c -> Forall (fun u => block_ok (snd u)) (uns i c).
  Proof.
    intros Hi. apply Forall_forall. intros u Hu.
    apply (units_ok im pl Him op F Hop cs mh mv Hcs Hn q0 q1 Hq0 Hq1 i c u Hi Hu).
  Qed.

  (** One scan of one component. *)
  Lemma single_scan i c ss se sp (m : prog bitw) :
    nth_error cs i = Some c -> spectral sp = (ss, se) ->
    emits m (coded_data 0 (spec_data ri (comp_table f (tb_dc t)) (comp_table f (tb_ac t)) cf ss se
                             (map (fun u => [fst u]) (uns i c)))) (bitw_new P) ->
    emits (write_scan_header [c] sp ;;; m)
          (render (scan_part {| si_comps := [i]; si_ss := ss; si_se := se |})) (bitw_new P).
  Proof.
    intros Hi Esp Hm.
    assert (Hc : In c cs) by (now apply nth_error_In in Hi).
    assert (Ei : nth_error (fr_comps f) i = Some (comp_of c)).
    { unfold f, frame_of. cbn [fr_comps]. now apply map_nth_error. }
    assert (Eh : scan_header f {| si_comps := [i]; si_ss := ss; si_se := se |} = sos_payload [c] ss se).
    { unfold scan_header. cbn [si_comps si_ss si_se flat_map length]. rewrite Ei.
      destruct (c_tabs cs mh mv Hcs c Hc) as [E1 E2]. unfold sos_payload. cbn [flat_map]. unfold sel_bytes.
      rewrite E1, E2. reflexivity. }
    unfold scan_part. rewrite Eh, render_scan by (unfold zlen; cbn; lia).
    eapply emits_bind.
    - replace ss with (fst (spectral sp)) by (now rewrite Esp). replace se with (snd (spectral sp)) by (now rewrite Esp).
      apply emits_write_sos; [|cbn [length]; lia]. constructor; [|constructor].
      pose proof smalls as S. rewrite Forall_forall in S. now apply S.
    - unfold scan_data. cbn [si_ss si_se].
      replace (mcus_of f {| si_comps := [i]; si_ss := ss; si_se := se |}) with (map (fun u => [fst u]) (uns i c)); [exact Hm|].
      unfold mcus_of. cbn [si_comps flat_map app]. rewrite Ei. cbn [app scan_mcus]. symmetry.
      apply (single_mcus_units im pl F cs mh mv Hcs q0 q1 prg i c Hi).
  Qed.

  Lemma blocks_bytes : emits (encode_blocks P op cs im q0 q1) [] blocks.
  Proof. exact (blocks_emits P HP im pl Him op F Hop Hfit cs mh mv Hcs Hn q0 q1 Hq0 Hq1 e d1 a1 bd1 ba1 Vd1 Va1). Qed.

  Definition seq_wpaths : Prop := forall i c, nth_error cs i = Some c ->
    path Z unitb ri 0 (fun _ u => zn (snd u) 0)
      (seq_writes P i (sel2 d0 d1 (c_qt c)) (sel2 a0 a1 (c_qt c)) (sel2 bd0 bd1 (c_qt c)) (sel2 ba0 ba1 (c_qt c)))
      ri 0 (uns i c).
  Definition dc_wpaths : Prop := forall i c, nth_error cs i = Some c ->
    path Z unitb ri 0 (fun _ u => zn (snd u) 0)
      (dc_writes P i (sel2 d0 d1 (c_qt c)) (sel2 bd0 bd1 (c_qt c))) ri 0 (uns i c).
  Lemma seq_paths_writes : seq_paths im pl F cs mh mv q0 q1 e d0 a0 d1 a1 bd0 ba0 bd1 ba1 -> seq_wpaths.
  Proof. intros Hp i c Hi. eapply path_mono; [|exact (Hp i c Hi)]. intros s u _. apply seq_good_writes. Qed.
  Lemma dc_paths_writes : dc_paths im pl F cs mh mv q0 q1 e d0 d1 bd0 bd1 -> dc_wpaths.
  Proof. intros Hp i c Hi. eapply path_mono; [|exact (Hp i c Hi)]. intros s u _. apply dc_good_writes. Qed.

  Lemma seq_comp_bytes i c : In (i, c) (enumerate cs) ->
    path Z unitb ri 0 (fun _ u => zn (snd u) 0)
      (seq_writes P (Z.to_nat i) (sel2 d0 d1 (c_qt c)) (sel2 a0 a1 (c_qt c)) (sel2 bd0 bd1 (c_qt c)) (sel2 ba0 ba1 (c_qt c)))
      ri 0 (uns (Z.to_nat i) c) ->
    emits (write_scan_header [c] None ;;;
      let* bs := index blocks i in
      let* dc := dc_table [(d0, a0); (d1, a1)] c in
      let* ac := ac_table [(d0, a0); (d1, a1)] c in
      sequential_scan P ri bs dc ac (bitw_new P))
          (render (scan_part (one_scan 0 63 (i, c)))) (bitw_new P).
  Proof.
    intros Hic Hp.
    pose proof (index_blocks P im pl F cs mh mv Hn q0 q1 e d1 a1 bd1 ba1 Vd1 Va1 i c Hic) as Eb.
    change (index blocks i = Ret (map snd (uns (Z.to_nat i) c))) in Eb.
    apply in_enum in Hic as [Hi Hc]. unfold one_scan. cbn [fst].
    apply (single_scan (Z.to_nat i) c 0 63 None); [exact Hc|reflexivity|].
    destruct (index_ht2 cs mh mv Hcs d0 a0 d1 a1 c (nth_error_In _ _ Hc)) as [E1 E2].
    rewrite Eb, E1, E2. cbn [bind].
    destruct (used_tables _ _ Hc) as (T1 & T2 & U1 & U2).
    apply (sequential_scan_bytes P HP ri Hri (Z.to_nat i) _ _ _ _ U1 U2 _ _ T1 T2 cf).
    - exact (units_nonempty im pl Him F cs mh mv Hcs Hn q0 q1 _ _ Hc).
    - now apply agrees_units.
    - now apply blocks_units.
    - exact Hp.
  Qed.
  Lemma seq_prog_bytes : seq_wpaths ->
    emits (seq_prog P im pl F cs mh mv q0 q1 e d0 a0 d1 a1 (bitw_new P))
          (flat_map render (map scan_part (map (one_scan 0 63) (enumerate cs)))) (bitw_new P).
  Proof.
    intros Hp. rewrite map_map, flat_map_concat_map, map_map, <- flat_map_concat_map. unfold seq_prog.
    apply emits_foldM. intros [i c] Hic. apply seq_comp_bytes; [exact Hic|]. apply in_enum in Hic as [_ Hc]. now apply Hp.
  Qed.

  Lemma dc_comp_bytes i c : In (i, c) (enumerate cs) ->
    path Z unitb ri 0 (fun _ u => zn (snd u) 0)
      (dc_writes P (Z.to_nat i) (sel2 d0 d1 (c_qt c)) (sel2 bd0 bd1 (c_qt c))) ri 0 (uns (Z.to_nat i) c) ->
    emits (write_scan_header [c] (Some (0, 0)) ;;;
      let* bs := index blocks i in
      let* dc := dc_table [(d0, a0); (d1, a1)] c in
      dc_scan P ri bs dc (bitw_new P))
          (render (scan_part (one_scan 0 0 (i, c)))) (bitw_new P).
  Proof.
    intros Hic Hp.
    pose proof (index_blocks P im pl F cs mh mv Hn q0 q1 e d1 a1 bd1 ba1 Vd1 Va1 i c Hic) as Eb.
    change (index blocks i = Ret (map snd (uns (Z.to_nat i) c))) in Eb.
    apply in_enum in Hic as [Hi Hc]. unfold one_scan. cbn [fst].
    apply (single_scan (Z.to_nat i) c 0 0 (Some (0, 0))); [exact Hc|reflexivity|].
    destruct (index_ht2 cs mh mv Hcs d0 a0 d1 a1 c (nth_error_In _ _ Hc)) as [E1 E2].
    rewrite Eb, E1. cbn [bind].
    destruct (used_tables _ _ Hc) as (T1 & T2 & U1 & U2).
    apply (dc_scan_bytes P HP ri Hri (Z.to_nat i) _ _ _ U1 U2 _ _ T1 T2 cf).
    - exact (units_nonempty im pl Him F cs mh mv Hcs Hn q0 q1 _ _ Hc).
    - now apply agrees_units.
    - now apply blocks_units.
    - exact Hp.
  Qed.
  Lemma dc_prog_bytes : dc_wpaths ->
    emits (dc_prog P im pl F cs mh mv q0 q1 e d0 a0 d1 a1 (bitw_new P))
          (flat_map render (map scan_part (map (one_scan 0 0) (enumerate cs)))) (bitw_new P).
  Proof.
    intros Hp. rewrite map_map, flat_map_concat_map, map_map, <- flat_map_concat_map. unfold dc_prog.
    apply emits_foldM. intros [i c] Hic. apply dc_comp_bytes; [exact Hic|]. apply in_enum in Hic as [_ Hc]. now apply Hp.
  Qed.

  Lemma ac_prog_bytes b : 1 <= fst b -> fst b <= snd b <= 64 -> ac_paths im pl F cs mh mv q0 q1 a0 a1 ba0 ba1 [b] ->
    emits (ac_prog1 P im pl F cs mh mv q0 q1 e d0 a0 d1 a1 b (bitw_new P))
          (flat_map render (map scan_part (map (one_scan (fst b) (snd b - 1)) (enumerate cs)))) (bitw_new P).
  Proof.
    intros Hb1 Hb2 Hp. rewrite map_map, flat_map_concat_map, map_map, <- flat_map_concat_map. unfold ac_prog1.
    apply emits_foldM. intros [i c] Hic.
    pose proof (index_blocks P im pl F cs mh mv Hn q0 q1 e d1 a1 bd1 ba1 Vd1 Va1 i c Hic) as Eb.
    apply in_enum in Hic as [Hi Hc]. unfold one_scan. cbn [fst].
    destruct b as [s en]. cbn [fst snd] in *.
    rewrite !wrap_u_id by lia. rewrite ck_u_ret by lia. cbn [bind].
    apply (single_scan (Z.to_nat i) c s (en - 1) (Some (s, en - 1))); [exact Hc|reflexivity|].
    destruct (index_ht2 cs mh mv Hcs d0 a0 d1 a1 c (nth_error_In _ _ Hc)) as [E1 E2].
    rewrite Eb, E2. cbn [bind].
    destruct (used_tables _ _ Hc) as (T1 & T2 & U1 & U2).
    apply (ac_scan_bytes P HP ri Hri (Z.to_nat i) _ _ U2 _ _ T2 cf); try assumption.
    - exact (units_nonempty im pl Him F cs mh mv Hcs Hn q0 q1 _ _ Hc).
    - now apply agrees_units.
    - apply (Hp _ _ (s, en) Hc). now left.
  Qed.

  (** ** Whole bodies *)
  Definition body_bytes (m : prog bitw) (scs : list scan_info) : Prop :=
    emits m (flat_map render (header_parts ++ map scan_part scs)) (bitw_new P).

  Lemma sequential_bytes : emits (tables_for P e cs blocks) [] ht ->
    seq_wpaths ->
    body_bytes (encode_image_sequential P op e cs im q0 q1 (bitw_new P)) (map (one_scan 0 63) (enumerate cs)).
  Proof.
    intros Ht Hp. unfold body_bytes, encode_image_sequential. rewrite flat_map_app.
    eapply emits_bind0; [apply blocks_bytes|]. eapply emits_bind0; [exact Ht|].
    eapply emits_bind; [apply header_bytes|]. now apply seq_prog_bytes.
  Qed.

  Lemma progressive_bytes scans : 2 <= scans <= 64 -> emits (tables_for P e cs blocks) [] ht ->
    dc_wpaths ->
    ac_paths im pl F cs mh mv q0 q1 a0 a1 ba0 ba1 (bands scans) ->
    body_bytes (encode_image_progressive P op e scans cs im q0 q1 (bitw_new P))
      (map (one_scan 0 0) (enumerate cs) ++ ac_scans cs (bands scans)).
  Proof.
    intros Hs Ht Hdc Hac. unfold body_bytes, encode_image_progressive. rewrite flat_map_app.
    eapply emits_bind0; [apply blocks_bytes|]. eapply emits_bind0; [exact Ht|].
    eapply emits_bind; [apply header_bytes|]. rewrite map_app, flat_map_app.
    eapply emits_bind; [now apply dc_prog_bytes|].
    rewrite prog_bands_ret by assumption. cbn [bind]. unfold ac_scans.
    pose proof (bands_ok64 scans Hs) as Hb. revert Hb Hac. generalize (bands scans) as bs.
    intros bs Hb Hac.
    replace (flat_map render (map scan_part (flat_map (fun b => map (one_scan (fst b) (snd b - 1)) (enumerate cs)) bs)))
      with (flat_map (fun b => flat_map render (map scan_part (map (one_scan (fst b) (snd b - 1)) (enumerate cs)))) bs).
    2:{ clear. induction bs as [|b bs IH]; [reflexivity|]. cbn [flat_map]. now rewrite map_app, flat_map_app, IH. }
    apply emits_foldM. intros [s en] Hin. rewrite Forall_forall in Hb. destruct (Hb _ Hin) as [B1 B2].
    apply (ac_prog_bytes (s, en)); [exact B1|exact B2|].
    intros i c b Hi [<-|[]]. now apply Hac.
  Qed.

  Variable C0 : complete d0 a0 bd0 ba0.
  Variable C1 : complete d1 a1 bd1 ba1.
  Variable Nd1 : uniq_syms bd1.
  Variable Na1 : uniq_syms ba1.

  Lemma interleaved_bytes : e_huff e = ht ->
    (forall c, cs = [c] -> c_h c = 1 /\ c_v c = 1) ->
    body_bytes (encode_image_interleaved P op e cs im q0 q1 (bitw_new P))
      [{| si_comps := seq 0 (length cs); si_ss := 0; si_se := 63 |}].
  Proof.
    intros Hh H1. unfold body_bytes, encode_image_interleaved. rewrite Hh, flat_map_app.
    eapply emits_bind; [apply header_bytes|].
    rewrite (cs_max _ _ _ Hcs). cbv zeta. cbn [map flat_map]. rewrite app_nil_r.
    assert (Efst : flat_map (fun ci => match nth_error (fr_comps f) ci with
                      | Some c => [co_id c; 16 * co_tq c + co_tq c] | None => [] end) (seq 0 (length cs))
                   = flat_map sel_bytes cs).
    { unfold f, frame_of. cbn [fr_comps].
      assert (G : forall l pre, cs = pre ++ l -> flat_map (fun ci => match nth_error (map comp_of cs) ci with
                      | Some c => [co_id c; 16 * co_tq c + co_tq c] | None => [] end) (seq (length pre) (length l))
                   = flat_map sel_bytes l).
      { induction l as [|c l IH]; intros pre E; [reflexivity|]. cbn [length seq flat_map].
        rewrite (map_nth_error comp_of (length pre) cs (d := c)).
        2:{ rewrite E, nth_error_app2, Nat.sub_diag by lia. reflexivity. }
        specialize (IH (pre ++ [c])). rewrite app_length in IH. cbn [length] in IH.
        rewrite Nat.add_1_r in IH. rewrite IH by (rewrite <- app_assoc; exact E).
        assert (Hc : In c cs) by (rewrite E; apply in_or_app; right; now left).
        destruct (c_tabs cs mh mv Hcs c Hc) as [E1 E2]. unfold sel_bytes. rewrite E1, E2. reflexivity. }
      apply (G cs []). reflexivity. }
    assert (Eh : scan_header f {| si_comps := seq 0 (length cs); si_ss := 0; si_se := 63 |} = sos_payload cs 0 63).
    { unfold scan_header. cbn [si_comps si_ss si_se]. rewrite Efst, seq_length. reflexivity. }
    unfold scan_part at 1. rewrite Eh, render_scan.
    2:{ unfold sos_payload, zlen. cbn [length]. rewrite app_length, sel_bytes_length. cbn [length]. pose proof n4. lia. }
    eapply emits_bind.
    { apply (emits_write_sos cs None smalls). pose proof n4. lia. }
    eapply emits_bind0.
    { apply emits_ck_u. pose proof (io_width _ _ Him) as HW. fold W in HW. fold W.
      pose proof (cs_mh _ _ _ Hcs) as Hmh. pose proof (cs_mv _ _ _ Hcs) as Hmv.
      pose proof (ceil_div_spec W (8 * mh) ltac:(lia)) as S1.
      assert (2 ^ 32 <= 2 ^ ubits P) by (apply Z.pow_le_mono_r; [lia|destruct HP as [E|E]; rewrite E; lia]).
      set (nc := ceil_div W (8 * mh)) in *. clearbody nc. clear - HW Hmh Hmv S1 H0. nia. }
    eapply emits_bind0.
    { unfold init_rows. destruct (cs_len _ _ _ Hcs) as [E|[E|E]]; rewrite E; apply emits_ret. }
    assert (Edc : forall i c, nth_error cs i = Some c -> comp_table f (tb_dc t) i = sel2 bd0 bd1 (c_qt c))
      by (intros i c Hi; apply (used_tables i c Hi)).
    assert (Eac : forall i c, nth_error cs i = Some c -> comp_table f (tb_ac t) i = sel2 ba0 ba1 (c_qt c))
      by (intros i c Hi; apply (used_tables i c Hi)).
    pose proof (inter_loop_bytes P HP ri Hri im pl Him op F Hop cs mh mv Hcs Hn q0 q1 Hq0 Hq1 d0 a0 d1 a1 bd0 ba0 bd1 ba1
      C0 C1 (valid_tab_uniq _ _ Vd0) Nd1 (valid_tab_uniq _ _ Va0) Na1 _ _ Edc Eac cf Hcf) as HB.
    unfold scan_data. cbn [si_ss si_se].
    replace (mcus_of f {| si_comps := seq 0 (length cs); si_ss := 0; si_se := 63 |}) with
      (map (mpos cs) (grid (mrows im mv) (mcols im mh))).
    - exact HB.
    - symmetry. unfold mcus_of. cbn [si_comps].
      replace (flat_map (fun ci => match nth_error (fr_comps f) ci with Some c => [(ci, c)] | None => [] end) (seq 0 (length cs)))
        with (combine (seq 0 (length cs)) (map comp_of cs)).
      + exact (scan_mcus_eq im pl F cs mh mv Hcs Hn q0 q1 bd0 ba0 bd1 ba1 (sc0 (comp_table f (tb_dc t)) (comp_table f (tb_ac t)))
                 (sc0_dc cs mh mv Hcs bd0 bd1 _ _ Edc) (sc0_ac cs mh mv Hcs ba0 ba1 _ _ Eac) prg H1).
      + unfold f, frame_of. cbn [fr_comps].
        assert (G : forall l pre, cs = pre ++ l -> combine (seq (length pre) (length l)) (map comp_of l) =
           flat_map (fun ci => match nth_error (map comp_of cs) ci with Some c => [(ci, c)] | None => [] end) (seq (length pre) (length l))).
        { induction l as [|c l IH]; intros pre E; [reflexivity|]. cbn [length seq flat_map map combine].
          rewrite (map_nth_error comp_of (length pre) cs (d := c)).
          2:{ rewrite E, nth_error_app2, Nat.sub_diag by lia. reflexivity. }
          specialize (IH (pre ++ [c])). rewrite app_length in IH. cbn [length] in IH.
          rewrite Nat.add_1_r in IH. rewrite IH by (rewrite <- app_assoc; exact E). reflexivity. }
        apply (G cs []). reflexivity.
  Qed.
End FileBytes.

(** ** The whole file *)
Definition app_part (a : Z * list Z) : part := Segment (224 + fst a) (snd a).

Lemma apps_bytes P e color t0 t1 : enc_ok e t0 t1 ->
  emits (write_header (e_density e) ;;;
      (match color with
       | JCmyk => write_segment P (APP 14) ADOBE_UNKNOWN
       | JYcck => write_segment P (APP 14) ADOBE_YCCK
       | _ => Ret tt
       end) ;;;
      foldM (fun _ '(nr, data) => write_segment P (APP nr) data) (e_segments e) tt)
    (flat_map render (map app_part (file_apps e color))) tt.
Proof.
  intros He. unfold file_apps. cbn [map flat_map].
  destruct (jfif_payload_ok (e_density e)) as [J1 J2].
  eapply emits_bind; [unfold app_part; cbn [fst snd]; rewrite render_seg by lia; apply emits_write_header|].
  rewrite map_app, flat_map_app. eapply emits_bind.
  - assert (R : forall d, zlen d <= 65533 -> flat_map render (map app_part [(14, d)]) = seg (224 + 14) d).
    { intros d Hd. cbn [map flat_map]. unfold app_part. cbn [fst snd]. now rewrite app_nil_r, render_seg. }
    unfold adobe_apps. destruct color; try apply emits_ret; rewrite R by (unfold zlen; cbn; lia);
      apply emits_write_segment; unfold zlen; cbn; lia.
  - pose proof (eo_segs _ _ _ He) as Hs. rewrite flat_map_concat_map, map_map, <- flat_map_concat_map.
    apply emits_foldM. intros [nr d] Hin. rewrite Forall_forall in Hs. destruct (Hs _ Hin) as (S1 & S2 & S3).
    cbn [fst snd] in *. unfold app_part. cbn [fst snd]. rewrite render_seg by assumption.
    now apply emits_write_segment.
Qed.

Lemma internal_bytes P op e im t0 t1 scans_bytes :
  let q0 := qtable_of t0 (e_quality e) true in
  let q1 := qtable_of t1 (e_quality e) false in
  let cs := init_components (e_sampling e) (im_color im) in
  1 <= im_width im -> 1 <= im_height im -> enc_ok e t0 t1 ->
  emits (body P op e cs im q0 q1 (bitw_new P)) (flat_map render scans_bytes) (bitw_new P) ->
  emits (encode_image_internal P op e im)
        (render_file (map app_part (file_apps e (im_color im)) ++ scans_bytes)) tt.
Proof.
  intros q0 q1 cs Hw Hh He Hb. unfold encode_image_internal.
  replace ((im_width im =? 0) || (im_height im =? 0)) with false by lia.
  rewrite (eo_qtypes _ _ _ He), (eo_comps _ _ _ He).
  change (index [t0; t1] 0) with (@Ret qtype t0). change (index [t0; t1] 1) with (@Ret qtype t1).
  cbn [bind app]. rewrite new_with_quality_ret. cbn [bind].
  eapply emits_bind0; [rewrite new_with_quality_ret; apply emits_ret|].
  unfold render_file. rewrite flat_map_app, <- app_assoc.
  eapply emits_bind; [apply emits_write_all|].
  pose proof (apps_bytes P e (im_color im) t0 t1 He) as Ha.
  assert (G : emits (let* _ := body P op e cs im q0 q1 (bitw_new P) in write_marker EOI)
                 (flat_map render scans_bytes ++ [255; 217]) tt).
  { eapply emits_bind; [exact Hb|]. apply emits_write_all. }
  pose proof (emits_bind _ (fun _ : unit => let* _ := body P op e cs im q0 q1 (bitw_new P) in write_marker EOI) _ tt _ tt Ha G) as E.
  unfold emits in *. rewrite <- E. rewrite bind_assoc. apply exec_bind_ext. intros _. rewrite bind_assoc. reflexivity.
Qed.

Lemma qt_get_mod t quality luma i : qtype_ok t -> 0 <= i < 64 ->
  qt_get (qtable_of t quality luma) i = quantizer_of t quality luma i mod 256.
Proof.
  intros Ht Hi. unfold qt_get. rewrite qt_table_entry by assumption. unfold wrap_u. change (2 ^ 3) with 8. change (2 ^ 8) with 256.
  f_equal. lia.
Qed.

Section Settings.
  Variable P : platform.
  Variable HP : plat_ok P.
  Variable s : settings.
  Variable Hs : settings_wf s.
  Variables (op : operations) (F : list Z -> list Z) (T : transform) (im : image) (pl : planes).
  Variable Hop : op_ok op F.
  Variable HF : transform_is F T.
  Variable Him : image_ok im pl.
  Variable Hfit : im_width im * im_height im < 2 ^ (ubits P - 1).
  Let e := enc_of s.
  Let color := im_color im.
  Let f := frame_for s color (im_width im) (im_height im).
  Let q0 := qtable_of (s_luma s) (e_quality e) true.
  Let q1 := qtable_of (s_chroma s) (e_quality e) false.
  Let cs := init_components (s_sampling s) color.
  Let mh := max_h (s_sampling s) color.
  Let mv := max_v (s_sampling s) color.
  Definition spec_cf : coefficients := fun ci y x k =>
    match nth_error (fr_comps f) ci with
    | Some c => expected T s color pl (im_width im) (im_height im) ci c y x k
    | None => 0
    end.

  Lemma spec_cf_ok i c y x k : nth_error cs i = Some c -> 0 <= k < 64 ->
    zn (cblock im pl F mh mv q0 q1 i c y x) k = spec_cf i y x k.
  Proof.
    intros Hi Hk. unfold spec_cf.
    assert (E : nth_error (fr_comps f) i = Some (comp_of c)).
    { unfold f. rewrite <- frame_for_eq. unfold frame_of. cbn [fr_comps]. now apply map_nth_error. }
    rewrite E. now apply cblock_expected.
  Qed.

  Lemma parts_eq d0 a0 d1 a1 scs : scs = scan_script s color ->
    map app_part (file_apps e color) ++
    header_parts im cs q0 q1 e d0 a0 d1 a1 ++ map (scan_part im cs e d0 a0 d1 a1 spec_cf) scs
    = file_parts (tables_of d0 a0 d1 a1) s f color spec_cf.
  Proof.
    intros ->. unfold file_parts.
    assert (E1 : map app_part (file_apps e color) = map (fun '(nr, data) => Segment (224 + nr) data) (apps_for s color)).
    { unfold e. rewrite apps_for_eq by assumption. apply map_ext. now intros [nr d]. }
    assert (E2 : frame_of match e_prog e with Some _ => true | None => false end (im_width im) (im_height im) cs = f)
      by apply frame_for_eq.
    assert (HZ : Forall (fun z => 0 <= z < 64) ZIGZAG) by (repeat constructor; lia).
    assert (E3 : q_part 0 q0 = dqt s 0).
    { unfold q_part, dqt. do 2 f_equal. rewrite <- zigzag_eq, map_map. apply map_ext_in. intros [v u] Hin.
      unfold q0. rewrite qt_get_mod; [reflexivity|apply wf_luma; exact Hs|].
      rewrite Forall_forall in HZ. apply HZ. rewrite <- zigzag_eq. apply in_map_iff. now exists (v, u). }
    assert (E4 : q_part 1 q1 = dqt s 1).
    { unfold q_part, dqt. do 2 f_equal. rewrite <- zigzag_eq, map_map. apply map_ext_in. intros [v u] Hin.
      unfold q1. rewrite qt_get_mod; [reflexivity|apply wf_chroma; exact Hs|].
      rewrite Forall_forall in HZ. apply HZ. rewrite <- zigzag_eq. apply in_map_iff. now exists (v, u). }
    rewrite E1. f_equal. unfold header_parts, scan_part. rewrite E2, E3, E4. unfold e. rewrite restart_of_eq.
    cbn [app]. rewrite <- !app_assoc. reflexivity.
  Qed.
End Settings.

Section StdBytes.
  Variable P : platform.
  Variable HP : plat_ok P.
  Variable s : settings.
  Variable Hs : settings_wf s.
  Variable Hopt : s_optimize s = false.

  Lemma annexK_tables_eq : tables_of std_luma_dc std_luma_ac std_chroma_dc std_chroma_ac = annexK_tables.
  Proof. reflexivity. Qed.

  Lemma std_bytes_with op F T im pl : op_ok op F -> transform_is F T -> image_ok im pl ->
    im_width im * im_height im < 2 ^ (ubits P - 1) ->
    emits (encode_image_internal P op (enc_of s) im)
      (render_file (file_parts annexK_tables s (frame_for s (im_color im) (im_width im) (im_height im)) (im_color im)
         (spec_cf s T im pl))) tt.
  Proof.
    intros Hop HF Him Hfit. set (e := enc_of s). set (color := im_color im).
    pose proof (enc_of_ok s Hs) as He. fold e in He.
    rewrite <- annexK_tables_eq, <- (parts_eq P s Hs T im pl _ _ _ _ _ (body_scans_eq s color Hs)).
    apply (internal_bytes P op e im (s_luma s) (s_chroma s)); [apply Him|apply Him|exact He|].
    set (cs := init_components (e_sampling e) (im_color im)). set (mh := max_h (e_sampling e) color). set (mv := max_v (e_sampling e) color).
    set (q0 := qtable_of (s_luma s) (e_quality e) true). set (q1 := qtable_of (s_chroma s) (e_quality e) false).
    assert (Hcs : comps_ok cs mh mv) by apply init_components_ok.
    assert (Hn : length cs = Z.to_nat (num_components (im_color im))) by apply init_components_length.
    assert (Hq0 : qtable_ok q0) by (apply qtable_of_ok; apply (eo_qt0 _ _ _ He)).
    assert (Hq1 : qtable_ok q1) by (apply qtable_of_ok; apply (eo_qt1 _ _ _ He)).
    pose proof (restart_range P im e (s_luma s) (s_chroma s) He) as Hri.
    pose proof (restart_nz P im e (s_luma s) (s_chroma s) He) as Hri1.
    pose proof (eo_prog _ _ _ He) as Hpr. pose proof (eo_huff _ _ _ He) as Hh.
    pose proof complete_luma as C0. pose proof complete_chroma as C1.
    pose proof V_ldc as V0. pose proof V_lac as V1. pose proof V_cdc as V2. pose proof V_cac as V3.
    pose proof (spec_cf_ok s Hs F T im pl HF) as Hcf.
    change (body_bytes P im cs q0 q1 e std_luma_dc std_luma_ac std_chroma_dc std_chroma_ac (spec_cf s T im pl)
              (body P op e cs im q0 q1 (bitw_new P)) (body_scans e cs)).
    unfold body, body_scans. destruct (e_prog e) as [scans|] eqn:Ep.
    - eapply (progressive_bytes P HP im pl Him op F Hop Hfit cs mh mv Hcs Hn q0 q1 Hq0 Hq1 e Hri Hri1
        std_luma_dc std_luma_ac std_chroma_dc std_chroma_ac tb_ldc tb_lac tb_cdc tb_cac V0 V1 (fun _ => V2) (fun _ => V3)
        (spec_cf s T im pl) Hcf scans ltac:(lia)).
      + unfold tables_for. change (e_optimize e) with (s_optimize s). rewrite Hopt, Hh. apply emits_ret.
      + apply dc_paths_writes, (complete_dc_paths P im pl Him op F Hop cs mh mv Hcs Hn q0 q1 Hq0 Hq1 e std_luma_dc std_luma_ac std_chroma_dc std_chroma_ac tb_ldc tb_lac tb_cdc tb_cac (fun _ => V2) (fun _ => V3) C0 C1).
      + intros i c b Hi Hb. apply Forall_forall. intros u Hu.
        destruct (units_ok im pl Him op F Hop cs mh mv Hcs Hn q0 q1 Hq0 Hq1 i c u Hi Hu) as [Eu Hbl].
        split; [exact Eu|]. split; [exact Hbl|].
        pose proof (bands_ok64 scans ltac:(lia)) as Hbs. rewrite Forall_forall in Hbs. destruct (Hbs b Hb).
        apply (complete_ac_syms P im pl F cs mh mv Hn q0 q1 e std_luma_dc std_luma_ac std_chroma_dc std_chroma_ac tb_ldc tb_lac tb_cdc tb_cac (fun _ => V2) (fun _ => V3) C0 C1); [exact Hbl|lia|lia].
    - change (e_optimize e) with (s_optimize s). rewrite Hopt. cbn [orb]. destruct (negb (supports_interleaved (e_sampling e))) eqn:Ei.
      + eapply (sequential_bytes P HP im pl Him op F Hop Hfit cs mh mv Hcs Hn q0 q1 Hq0 Hq1 e Hri Hri1
          std_luma_dc std_luma_ac std_chroma_dc std_chroma_ac tb_ldc tb_lac tb_cdc tb_cac V0 V1 (fun _ => V2) (fun _ => V3)
          (spec_cf s T im pl) Hcf).
        * unfold tables_for. change (e_optimize e) with (s_optimize s). rewrite Hopt, Hh. apply emits_ret.
        * apply seq_paths_writes, (complete_seq_paths P im pl Him op F Hop cs mh mv Hcs Hn q0 q1 Hq0 Hq1 e std_luma_dc std_luma_ac std_chroma_dc std_chroma_ac tb_ldc tb_lac tb_cdc tb_cac (fun _ => V2) (fun _ => V3) C0 C1).
      + eapply (interleaved_bytes P HP im pl Him op F Hop cs mh mv Hcs Hn q0 q1 Hq0 Hq1 e Hri Hri1
          std_luma_dc std_luma_ac std_chroma_dc std_chroma_ac tb_ldc tb_lac tb_cdc tb_cac V0 V1 (fun _ => V2) (fun _ => V3)
          (spec_cf s T im pl) Hcf C0 C1 (valid_tab_uniq _ _ V2) (valid_tab_uniq _ _ V3) Hh).
        intros c Ec. unfold cs, init_components in Ec. destruct (sampling_factors (e_sampling e)) as [h v].
        destruct (im_color im); inversion Ec; subst; split; reflexivity.
  Qed.
End StdBytes.
