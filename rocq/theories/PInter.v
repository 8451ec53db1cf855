(** The interleaved scan. *)
From Verif Require Export PGeom.
From Verif Require Import T81.
From Coq Require Import ZifyBool ZifyNat.
Local Ltac Zify.zify_post_hook ::= Z.div_mod_to_equations.

(** ** Tables that have a code for everything a codable block can need *)
Record complete (d a : htab) (bd ba : table) : Prop := {
  cp_dc : forall s, 0 <= s <= 11 -> codes d bd s;
  cp_eob : codes a ba 0;
  cp_zrl : codes a ba 0xF0;
  cp_ac : forall r n, 0 <= r < 16 -> 1 <= n <= 10 -> codes a ba (16 * r + n)
}.

Lemma ac_syms_complete d a bd ba vals : complete d a bd ba ->
  Forall (fun v => Z.abs v < 2 ^ 10) vals -> forall zr, 0 <= zr -> Forall (codes a ba) (ac_syms vals zr).
Proof.
  intros Hc. induction vals as [|v vals IH]; intros HF zr Hzr; cbn [ac_syms].
  - destruct (0 <? zr); [|constructor]. constructor; [apply (cp_eob _ _ _ _ Hc)|constructor].
  - inversion HF as [|? ? Hv HF']; subst. destruct (v =? 0) eqn:E.
    + apply IH; [assumption|lia].
    + apply Forall_app. split.
      * apply Forall_forall. intros x Hx. apply repeat_spec in Hx. subst. apply (cp_zrl _ _ _ _ Hc).
      * constructor; [|now apply IH].
        pose proof (nbits_bound v 10 ltac:(lia) Hv). pose proof (nbits_spec v ltac:(lia)).
        apply (cp_ac _ _ _ _ Hc); [lia|].
        assert (nbits v <> 0); [|lia]. intros E0. rewrite E0 in H0. cbn in H0. lia.
Qed.

Lemma dc_complete d a bd ba b p : complete d a bd ba -> block_ok b -> -1024 <= p <= 1023 ->
  codes d bd (nbits (zn b 0 - p)).
Proof.
  intros Hc Hb Hp. apply (cp_dc _ _ _ _ Hc). apply (nbits_bound _ 11); [lia|].
  now apply block_ok_dcdiff.
Qed.

(** ** Folding units *)
Section USim.
  Variable P : platform.
  Variable S : Type.
  Variable sc : scan.
  Variable sim : S -> dstate -> Prop.

  Definition usim (f : bitw * S -> prog (bitw * S)) (pos : list unit_pos) (ent : list entry)
    (nx : S -> S) : Prop :=
    forall s ds, sim s ds ->
    exists bits ds', appendsS P (fun w => f (w, s)) bits (nx s) /\ sim (nx s) ds' /\
      forall rest, decode_units sc ds pos (bits ++ rest) = Some (ent, ds', rest).

  Lemma usim_foldM {X} (F : bitw * S -> X -> prog (bitw * S)) px ex nx l :
    (forall x, In x l -> usim (fun st => F st x) (px x) (ex x) (nx x)) ->
    usim (fun st => foldM F l st) (flat_map px l) (flat_map ex l)
         (fun s => fold_left (fun s x => nx x s) l s).
  Proof.
    induction l as [|x l IH]; intros Hx s ds Hs.
    - exists [], ds. split; [|split; [exact Hs|reflexivity]].
      intros w pend Hr. exists w, [], pend. split; [apply emits_ret|]. split; [constructor|].
      split; [exact Hr|]. now rewrite app_nil_r.
    - destruct (Hx x (or_introl eq_refl) s ds Hs) as (b1 & ds1 & Ha1 & Hs1 & Hd1).
      destruct (IH (fun y Hy => Hx y (or_intror Hy)) _ _ Hs1) as (b2 & ds2 & Ha2 & Hs2 & Hd2).
      exists (b1 ++ b2), ds2. split; [|split].
      + intros w pend Hr. destruct (Ha1 w pend Hr) as (w1 & d1 & p1 & He1 & Ho1 & Hr1 & Hb1).
        destruct (Ha2 w1 p1 Hr1) as (w2 & d2 & p2 & He2 & Ho2 & Hr2 & Hb2).
        exists w2, (d1 ++ d2), p2. split; [|split; [|split]].
        * rewrite stuff_app. cbn [foldM fold_left]. eapply emits_bind; eassumption.
        * now apply bytes_ok_app.
        * exact Hr2.
        * rewrite bits_of_bytes_app, app_assoc, Hb1, <- app_assoc, Hb2, app_assoc. reflexivity.
      + exact Hs2.
      + intros rest. cbn [flat_map]. rewrite <- app_assoc. eapply decode_units_app; [apply Hd1|apply Hd2].
  Qed.

  Lemma usim_ext f g pos ent nx :
    (forall st, exec (f st) = exec (g st)) -> usim g pos ent nx -> usim f pos ent nx.
  Proof.
    intros E Hg s ds Hs. destruct (Hg s ds Hs) as (b & ds' & Ha & Hr).
    exists b, ds'. split; [|exact Hr]. intros w pend Hrep.
    destruct (Ha w pend Hrep) as (w' & d & p & He & Hrest). exists w', d, p. split; [|exact Hrest].
    unfold emits. rewrite E. exact He.
  Qed.
End USim.

Definition sel2 {A} (a b : A) (i : Z) : A := if i =? 0 then a else b.

Section Inter.
  Variable P : platform.
  Variable HP : plat_ok P.
  Variable ri : Z.
  Variable Hri : 0 <= ri < 2 ^ 16.
  Variable im : image.
  Variable pl : planes.
  Variable Him : image_ok im pl.
  Variable op : operations.
  Variable F : list Z -> list Z.
  Variable Hop : op_ok op F.
  Let W := im_width im.
  Let H := im_height im.
  Let n := Z.to_nat (num_components (im_color im)).
  Variable cs : list component.
  Variables mh mv : Z.
  Variable Hcs : comps_ok cs mh mv.
  Variable Hn : length cs = n.
  Variables q0 q1 : qtable.
  Variable Hq0 : qtable_ok q0.
  Variable Hq1 : qtable_ok q1.
  Variables (d0 a0 d1 a1 : htab) (bd0 ba0 bd1 ba1 : table).
  Variable Hc0 : complete d0 a0 bd0 ba0.
  Variable Hc1 : complete d1 a1 bd1 ba1.
  Let ht := [(d0, a0); (d1, a1)].

  Variable sc : scan.
  Variable Hss : sc_ss sc = 0.
  Variable Hse : sc_se sc = 63.
  Variable Htd : forall i c, nth_error cs i = Some c -> sc_dc sc i = Some (sel2 bd0 bd1 (c_dc c)).
  Variable Hta : forall i c, nth_error cs i = Some c -> sc_ac sc i = Some (sel2 ba0 ba1 (c_ac c)).

  Lemma sel2_complete i :
    complete (sel2 d0 d1 i) (sel2 a0 a1 i) (sel2 bd0 bd1 i) (sel2 ba0 ba1 i).
  Proof. unfold sel2. now destruct (i =? 0). Qed.

  Definition isim (s : list Z) (ds : dstate) : Prop :=
    length s = 4%nat /\ snd ds = 0 /\
    forall i, (i < n)%nat -> exists v, nth_error s i = Some v /\ nth_error (fst ds) i = Some v /\
                                  -1024 <= v <= 1023.

  Lemma isim0 : isim [0; 0; 0; 0] (repeat 0 n, 0).
  Proof.
    split; [reflexivity|]. split; [reflexivity|]. intros i Hi. exists 0.
    pose proof (n_le_4 im) as H4. fold n in H4.
    split; [|split; [now apply nth_error_repeat0|lia]].
    destruct i as [|[|[|[|i]]]]; try reflexivity; lia.
  Qed.

  Let blk := cblock im pl F mh mv q0 q1.

  (** One data unit of an MCU. *)
  Lemma unit_usim i c block y x : nth_error cs i = Some c -> block_ok block ->
    usim P (list Z) sc isim
      (fun '(w, prev_dc) =>
         let* prev := index prev_dc (Z.of_nat i) in
         let* w := write_block P w block prev (sel2 d0 d1 (c_dc c)) (sel2 a0 a1 (c_ac c)) in
         Ret (w, upd prev_dc i (zn block 0)))
      [(i, y, x)] [{| en_pos := (i, y, x); en_ss := 0; en_vals := block |}]
      (fun s => upd s i (zn block 0)).
  Proof.
    intros Hi Hb s ds (Hl & Hr & Hv).
    assert (Hin : (i < n)%nat) by (rewrite <- Hn; apply nth_error_Some; rewrite Hi; discriminate).
    destruct (Hv i Hin) as (v & Hv1 & Hv2 & Hvb).
    pose proof (sel2_complete (c_dc c)) as Hcd.
    assert (Hsame : c_dc c = c_ac c).
    { pose proof (cs_comp _ _ _ Hcs _ _ Hi) as Hc. rewrite (ck_dc _ _ _ _ _ Hc), (ck_ac _ _ _ _ _ Hc). reflexivity. }
    rewrite Hsame in Hcd.
    destruct (write_block_ok P HP n i Hin (sel2 d0 d1 (c_dc c)) (sel2 a0 a1 (c_ac c))
                (sel2 bd0 bd1 (c_dc c)) (sel2 ba0 ba1 (c_ac c)) block v (sc_progressive sc) Hb Hvb)
      as (bits & Ha & Hd).
    { rewrite Hsame. eapply dc_complete; eassumption. }
    { eapply ac_syms_complete; [exact Hcd| |lia]. apply Hb. }
    exists bits, (set_nth (fst ds) i (zn block 0), 0). split; [|split].
    - intros w pend Hrep. destruct (Ha w pend Hrep) as (w' & d & p & He & Hrest).
      exists w', d, p. split; [|exact Hrest]. cbv beta iota.
      rewrite (index_nth _ _ v); [|lia|now rewrite Nat2Z.id]. cbn [bind].
      rewrite <- (app_nil_r (stuff d)). eapply emits_bind; [exact He|]. apply emits_ret.
    - split; [now rewrite upd_length|]. split; [reflexivity|]. intros j Hj. cbn [fst].
      destruct (Nat.eq_dec i j) as [<-|Hne].
      + exists (zn block 0). rewrite nth_error_upd, Nat.eqb_refl. 
        replace (i <? length s)%nat with true by (pose proof (n_le_4 im); lia).
        split; [reflexivity|]. split; [eapply set_nth_same; eassumption|]. apply Hb.
      + destruct (Hv j Hj) as (vj & Hj1 & Hj2 & Hjb). exists vj.
        rewrite nth_error_upd. replace (i =? j)%nat with false by lia. cbn [andb].
        split; [exact Hj1|]. split; [|exact Hjb]. rewrite set_nth_other by assumption. exact Hj2.
    - intros rest. destruct (Hd rest) as (mid & H1 & H2).
      destruct ds as [preds run]. cbn [fst snd] in *. subst run.
      cbn [decode_units decode_unit]. rewrite Hss. cbn [Z.eqb].
      rewrite (Htd _ _ Hi), Hv2, H1, Hse. cbn [Z.eqb]. rewrite (Hta _ _ Hi), H2.
      rewrite <- (block_split block) by apply Hb. reflexivity.
  Qed.

  Definition mcols := ceil_div W (8 * mh).
  Definition mrows := ceil_div H (8 * mv).
  Definition mbw := mcols * 8 * mh.
  Definition mys (my : Z) := map (fun y => y + my * 8 * mv) (zrange (8 * mv)).
  Definition mrow (my : Z) : bufs := buf_of n pl W H mbw (mys my).

  Definition mpos (u : Z * Z) : list unit_pos :=
    flat_map (fun '(i, c) => flat_map (fun v => flat_map (fun h =>
       [(Z.to_nat i, fst u * c_v c + v, snd u * c_h c + h)]) (zrange (c_h c))) (zrange (c_v c))) (enumerate cs).
  Definition ment (u : Z * Z) : list entry :=
    flat_map (fun '(i, c) => flat_map (fun v => flat_map (fun h =>
       [{| en_pos := (Z.to_nat i, fst u * c_v c + v, snd u * c_h c + h); en_ss := 0;
           en_vals := blk (Z.to_nat i) c (fst u * c_v c + v) (snd u * c_h c + h) |}])
       (zrange (c_h c))) (zrange (c_v c))) (enumerate cs).
  Definition mnext (s : list Z) (u : Z * Z) : list Z :=
    fold_left (fun s '(i, c) => fold_left (fun s v => fold_left (fun s h =>
       upd s (Z.to_nat i) (zn (blk (Z.to_nat i) c (fst u * c_v c + v) (snd u * c_h c + h)) 0))
       (zrange (c_h c)) s) (zrange (c_v c)) s) (enumerate cs) s.
  Definition mgood (s : list Z) (u : Z * Z) : Prop := 0 <= fst u < mrows /\ 0 <= snd u < mcols.
  Definition mstep (s : list Z) (u : Z * Z) (w : bitw) : prog (bitw * list Z) :=
    write_mcu P op cs ht [q0; q1] mh mv mbw (mrow (fst u)) (snd u) (w, s).

  Lemma index_ht c i : nth_error cs i = Some c ->
    dc_table ht c = Ret (sel2 d0 d1 (c_dc c)) /\ ac_table ht c = Ret (sel2 a0 a1 (c_ac c)).
  Proof.
    intros Hi. pose proof (cs_comp _ _ _ Hcs _ _ Hi) as Hc.
    unfold dc_table, ac_table, sel2. rewrite (ck_dc _ _ _ _ _ Hc), (ck_ac _ _ _ _ _ Hc).
    destruct (ck_qt _ _ _ _ _ Hc) as [E|[E _]]; rewrite E; split; reflexivity.
  Qed.

  Lemma mcu_block i c u v h : nth_error cs i = Some c -> mgood [] u -> 0 <= v < c_v c -> 0 <= h < c_h c ->
    exists r, nth_error (mrow (fst u)) i = Some r /\
    emits (make_block P op r (snd u * 8 * mh + h * 8) (v * 8)
             (mh / c_h c) (mv / c_v c) mbw (qsel q0 q1 c)) []
          (blk i c (fst u * c_v c + v) (snd u * c_h c + h)) /\
    block_ok (blk i c (fst u * c_v c + v) (snd u * c_h c + h)).
  Proof.
    intros Hi [Hu1 Hu2] Hv Hh. pose proof (cs_comp _ _ _ Hcs _ _ Hi) as Hc.
    assert (Hin : (i < n)%nat) by (rewrite <- Hn; apply nth_error_Some; rewrite Hi; discriminate).
    pose proof (cs_mh _ _ _ Hcs) as Hmh. pose proof (cs_mv _ _ _ Hcs) as Hmv.
    pose proof (qsel_ok q0 q1 Hq0 Hq1 c) as Hq.
    eexists. split; [apply (buf_of_nth im); [exact Hin|apply n_le_4]|].
    unfold blk, cblock, hstride, vstride, mbw.
    assert (Fh : 1 <= mh / c_h c /\ mh = mh / c_h c * c_h c /\ h = h * (mh / c_h c)).
    { destruct (stride_cases mh (c_h c) Hmh (ck_h _ _ _ _ _ Hc)) as [[Eh Es]|[Eh Es]]; rewrite Es.
      - rewrite Eh in *. assert (h = 0) by lia. subst h. lia.
      - lia. }
    assert (Fv : 1 <= mv / c_v c /\ mv = mv / c_v c * c_v c /\ v = v * (mv / c_v c)).
    { destruct (stride_cases mv (c_v c) Hmv (ck_v _ _ _ _ _ Hc)) as [[Eh Es]|[Eh Es]]; rewrite Es.
      - rewrite Eh in *. assert (v = 0) by lia. subst v. lia.
      - lia. }
    clear Hmh Hmv Hc. unfold mgood in *.
    set (hs := mh / c_h c) in *. clearbody hs. set (vs := mv / c_v c) in *. clearbody vs.
    set (ch := c_h c) in *. clearbody ch. set (cv := c_v c) in *. clearbody cv.
    set (nc := mcols) in *. clearbody nc. set (nr := mrows) in *. clearbody nr.
    destruct Fh as (Fh1 & Fh2 & Fh3), Fv as (Fv1 & Fv2 & Fv3).
    assert (X1 : 0 <= snd u * ch) by nia. assert (X2 : 0 <= fst u * cv) by nia.
    split; [|apply (coef_block_ok im pl Him op F Hop); (exact Hin || exact Hq || lia)].
    destruct u as [uy ux]. cbn [fst snd] in *.
    apply (make_block_ok im pl Him op F Hop); try (exact Hin || exact Hq || lia).
    - assert (Y1 : (ux + 1) * ch <= nc * ch) by (apply Z.mul_le_mono_nonneg_r; lia).
      assert (Y2 : hs * ((ux + 1) * ch) <= hs * (nc * ch)) by (apply Z.mul_le_mono_nonneg_l; lia).
      replace (ux * 8 * mh + h * 8 + 8 * hs) with (8 * (hs * (ux * ch + (h + 1)))) by (rewrite Fh2 at 1; rewrite Fh3 at 2; ring).
      replace (nc * 8 * mh) with (8 * (hs * (nc * ch))) by (rewrite Fh2; ring).
      assert (hs * (ux * ch + (h + 1)) <= hs * ((ux + 1) * ch)) by (apply Z.mul_le_mono_nonneg_l; lia). lia.
    - intros k Hk. unfold mys.
      assert (Y : v * 8 + k * vs < 8 * mv) by (rewrite Fv2, Fv3; nia).
      rewrite (map_nth_error _ _ _ (zrange_nth (8 * mv) (Z.to_nat (v * 8 + k * vs)) ltac:(nia))).
      rewrite Z2Nat.id by nia. f_equal. rewrite Fv2. nia.
  Qed.

  Lemma mstep_ok : forall s u ds, isim s ds -> mgood s u ->
    exists bits ds', appendsS P (mstep s u) bits (mnext s u) /\ isim (mnext s u) ds' /\
      forall rest, decode_units sc ds (mpos u) (bits ++ rest) = Some (ment u, ds', rest).
  Proof.
    intros s u ds Hs Hg.
    enough (G : usim P (list Z) sc isim
      (fun st => write_mcu P op cs ht [q0; q1] mh mv mbw (mrow (fst u)) (snd u) st)
      (mpos u) (ment u) (fun s => mnext s u)).
    { destruct (G s ds Hs) as (b & ds' & Ha & Hr). exists b, ds'. split; [exact Ha|exact Hr]. }
    unfold write_mcu, mpos, ment, mnext.
    set (nx1 := fun (ic : Z * component) (s : list Z) =>
       fold_left (fun s v => fold_left (fun s h =>
       upd s (Z.to_nat (fst ic)) (zn (blk (Z.to_nat (fst ic)) (snd ic) (fst u * c_v (snd ic) + v) (snd u * c_h (snd ic) + h)) 0))
       (zrange (c_h (snd ic))) s) (zrange (c_v (snd ic))) s).
    assert (Enx : forall s, fold_left (fun s '(i, c) => fold_left (fun s v => fold_left (fun s h =>
       upd s (Z.to_nat i) (zn (blk (Z.to_nat i) c (fst u * c_v c + v) (snd u * c_h c + h)) 0))
       (zrange (c_h c)) s) (zrange (c_v c)) s) (enumerate cs) s =
       fold_left (fun s x => nx1 x s) (enumerate cs) s).
    { clear. induction (enumerate cs) as [|[i c] l IH]; intros s; cbn [fold_left]; [reflexivity|]. apply IH. }
    intros s1 ds1 Hs1. rewrite Enx. revert s1 ds1 Hs1.
    match goal with |- forall s1 ds1, isim s1 ds1 -> exists bits ds', appendsS P (fun w => ?F) _ _ /\ _ => idtac end.
    refine (usim_foldM P (list Z) sc isim _ _ _ nx1 (enumerate cs) _).
    intros [i c] Hic. apply (in_enumerate im cs Hn) in Hic as [Hi0 Hic].
    unfold nx1. cbn [fst snd].
    refine (usim_foldM P (list Z) sc isim _ _ _ (fun v s => fold_left (fun s h =>
       upd s (Z.to_nat i) (zn (blk (Z.to_nat i) c (fst u * c_v c + v) (snd u * c_h c + h)) 0))
       (zrange (c_h c)) s) (zrange (c_v c)) _).
    intros v Hv. apply in_zrange in Hv.
    refine (usim_foldM P (list Z) sc isim _ _ _ (fun h s =>
       upd s (Z.to_nat i) (zn (blk (Z.to_nat i) c (fst u * c_v c + v) (snd u * c_h c + h)) 0))
       (zrange (c_h c)) _).
    intros h Hh. apply in_zrange in Hh.
    destruct (mcu_block (Z.to_nat i) c u v h Hic Hg Hv Hh) as (r & Hr & He & Hb).
    eapply usim_ext; [|apply (unit_usim (Z.to_nat i) c _ _ _ Hic Hb)].
    intros [w prev]. cbv beta iota.
    rewrite (index_nth _ _ _ Hi0 Hr). cbn [bind].
    rewrite (index_q cs mh mv Hcs q0 q1 _ _ Hic). cbn [bind].
    rewrite exec_bind. unfold emits in He. rewrite He. cbn [app].
    destruct (index_ht c _ Hic) as [E1 E2]. rewrite E1, E2. cbn [bind].
    rewrite Z2Nat.id by assumption.
    match goal with |- (let '(o', r0) := ?X in (o', r0)) = _ => now destruct X end.
  Qed.

  (** The whole interleaved scan. *)
  Definition inter_loop (w : bitw) : prog bitw :=
    let* '(w, _, _, _) :=
      foldM (fun st block_y =>
        let* row := fill_rows im mbw (mys block_y) [[]; []; []; []] in
        foldM (fun '(w, prev_dc, restarts, to_go) block_x =>
          let* '(w, prev_dc) :=
            (if (0 <? ri) && (to_go =? 0) then
               let* w := finalize_bit_buffer P w in
               write_marker (RST (restarts mod 8)) ;;;
               Ret (w, [0; 0; 0; 0])
             else Ret (w, prev_dc)) in
          let* '(w, prev_dc) := write_mcu P op cs ht [q0; q1] mh mv mbw row
                                          block_x (w, prev_dc) in
          let* '(restarts, to_go) := restart_after P ri restarts to_go in
          Ret (w, prev_dc, restarts, to_go))
          (zrange mcols) st)
        (zrange mrows) (w, [0; 0; 0; 0], 0, ri) in
    finalize_bit_buffer P w.

  Lemma mbw_ge : W <= mbw.
  Proof.
    pose proof (cs_mh _ _ _ Hcs). pose proof (ceil_div_spec W (8 * mh) ltac:(lia)) as E.
    unfold mbw, mcols. lia.
  Qed.

  Lemma inter_loop_eq w : exec (inter_loop w) =
    exec (loop P (list Z) (Z * Z) ri [0; 0; 0; 0] mstep (grid mrows mcols) (w, [0; 0; 0; 0], 0, ri)).
  Proof.
    unfold inter_loop, loop. rewrite !exec_bind.
    rewrite (foldM_nested _ (fun st y x => loop_body P (list Z) (Z * Z) ri [0; 0; 0; 0] mstep st (y, x))
               (fun _ => zrange mcols)).
    - fold (grid mrows mcols).
      erewrite foldM_ext; [reflexivity|]. intros st [y x] _. reflexivity.
    - intros st y Hy. apply in_zrange in Hy. rewrite exec_bind.
      pose proof (fill_rows_ok im pl Him mbw (mys y) mbw_ge) as Hf.
      unfold emits in Hf. rewrite Hf.
      + cbn [app]. fold W H n. fold (mrow y).
        erewrite foldM_ext; [match goal with |- (let '(o', r0) := ?X in (o', r0)) = _ => destruct X eqn:E; rewrite <- E; reflexivity end|].
        intros [[[w' s'] r'] t'] x _. reflexivity.
      + apply Forall_forall. intros z Hz. apply in_map_iff in Hz as (k & <- & Hk).
        apply in_zrange in Hk. pose proof (cs_mv _ _ _ Hcs). nia.
  Qed.

  Lemma grid_mcus_nonempty : grid mrows mcols <> [].
  Proof.
    intros E. assert (Hin : In (0, 0) (grid mrows mcols)).
    { apply in_grid. pose proof (cs_mh _ _ _ Hcs). pose proof (cs_mv _ _ _ Hcs).
      pose proof (ceil_div_pos W (8 * mh) ltac:(lia) (proj1 (io_width _ _ Him))).
      pose proof (ceil_div_pos H (8 * mv) ltac:(lia) (proj1 (io_height _ _ Him))).
      unfold mrows, mcols. lia. }
    rewrite E in Hin. destruct Hin.
  Qed.

  Lemma inter_loop_ok :
    exists o, emits (inter_loop (bitw_new P)) o (bitw_new P) /\ bytes_ok o /\
      forall mk rest, mk <> 0 ->
        decode_intervals sc n 0 (intervals ri (map mpos (grid mrows mcols))) (o ++ 255 :: mk :: rest)
        = Some (flat_map ment (grid mrows mcols), 255 :: mk :: rest).
  Proof.
    destruct (loop_ok_uniform P HP (list Z) (Z * Z) ri Hri [0; 0; 0; 0] mstep sc n mpos ment mnext mgood
                isim isim0) with (us := grid mrows mcols) as (o & He & Hok & Hd).
    - intros s ds Hs. apply Hs.
    - apply mstep_ok.
    - apply grid_mcus_nonempty.
    - apply Forall_forall. intros [y x] Hin s ds _. apply in_grid in Hin. exact Hin.
    - exists o. split; [|split; [exact Hok|exact Hd]]. unfold emits. rewrite inter_loop_eq. exact He.
  Qed.

  (** The decoder's MCU order. *)
  Lemma enumerate_seq {A B} (f : A -> B) (l : list A) :
    map (fun '(i, a) => (Z.to_nat i, f a)) (enumerate l) = combine (seq 0 (length l)) (map f l).
  Proof.
    unfold enumerate, zrange, zlen. rewrite Nat2Z.id. generalize 0%nat as k.
    induction l as [|a l IH]; intros k; cbn [length seq map combine]; [reflexivity|].
    rewrite Nat2Z.id. f_equal. apply IH.
  Qed.

  Lemma interleaved_mcus_eq p :
    interleaved_mcus (frame_of p W H cs) (combine (seq 0 (length cs)) (map comp_of cs))
    = map mpos (grid mrows mcols).
  Proof.
    unfold interleaved_mcus, grid.
    unfold mcus_wide, mcus_high. rewrite (hmax_frame p W H cs mh mv Hcs), (vmax_frame p W H cs mh mv Hcs).
    cbn [frame_of fr_width fr_height].
    pose proof (cs_mh _ _ _ Hcs) as Hm1. pose proof (cs_mv _ _ _ Hcs) as Hm2.
    rewrite <- !ceil_div_cdiv by lia. fold mcols mrows. rewrite !upto_zrange.
    rewrite flat_map_concat_map, flat_map_concat_map, concat_map, map_map. f_equal.
    apply map_ext. intros my. rewrite map_map. apply map_ext. intros mx.
    unfold mpos. cbn [fst snd]. rewrite <- enumerate_seq.
    rewrite !flat_map_concat_map, map_map. f_equal. apply map_ext. intros [i c].
    cbn [comp_of co_h co_v]. rewrite upto_zrange. rewrite !flat_map_concat_map. f_equal.
  Qed.

  Lemma scan_mcus_eq p : (forall c, cs = [c] -> c_h c = 1 /\ c_v c = 1) ->
    scan_mcus (frame_of p W H cs) (combine (seq 0 (length cs)) (map comp_of cs))
    = map mpos (grid mrows mcols).
  Proof.
    intros H1. destruct (cs_len _ _ _ Hcs) as [E|E].
    - assert (exists c, cs = [c]) as [c Ecs].
      { clear - E. destruct cs as [|c [|c' cs']]; try discriminate. now exists c. }
      destruct (H1 c Ecs) as [Eh Ev].
      replace (combine (seq 0 (length cs)) (map comp_of cs)) with [(0%nat, comp_of c)] by (rewrite Ecs; reflexivity).
      unfold scan_mcus, single_mcus.
      assert (Hi : nth_error cs 0 = Some c) by (rewrite Ecs; reflexivity).
      rewrite (blocks_wide_eq p W H cs mh mv 0 c Hcs Hi), (blocks_high_eq p W H cs mh mv 0 c Hcs Hi).
      pose proof (cs_max _ _ _ Hcs) as Em. rewrite Ecs in Em. unfold max_sampling in Em.
      cbn [fold_left] in Em. rewrite Eh, Ev in Em. assert (Em1 : Z.max 1 1 = mh) by congruence. assert (Em2 : Z.max 1 1 = mv) by congruence. clear Em.
      assert (A : ncols W mh c = mcols).
      { unfold ncols, hstride, mcols. rewrite Eh, <- Em1, !ceil_div_cdiv by lia.
        change (1 / 1) with 1. rewrite cdiv_1. reflexivity. }
      assert (B : nrows H mv c = mrows).
      { unfold nrows, vstride, mrows. rewrite Ev, <- Em2, !ceil_div_cdiv by lia.
        change (1 / 1) with 1. rewrite cdiv_1. reflexivity. }
      rewrite A, B, !upto_zrange. unfold grid.
      rewrite flat_map_concat_map, flat_map_concat_map, concat_map, map_map. f_equal.
      apply map_ext. intros my. rewrite map_map. apply map_ext. intros mx.
      unfold mpos. rewrite Ecs. change (enumerate [c]) with [(0, c)]. cbn [flat_map fst snd app].
      rewrite Eh, Ev. change (zrange 1) with [0]. cbn [flat_map app].
      rewrite !Z.mul_1_r, !Z.add_0_r. reflexivity.
    - rewrite <- (interleaved_mcus_eq p). unfold scan_mcus.
      destruct cs as [|c [|c' cs']]; cbn [length] in E; try lia. reflexivity.
  Qed.
End Inter.
