(** Whole files: header, scans of the three modes, composition. *)
From Verif Require Export PSos.
From Verif Require Import T81.
From Coq Require Import ZifyBool ZifyNat.
Local Ltac Zify.zify_post_hook ::= Z.div_mod_to_equations.

(** ** End of file *)
Definition decE {A} (m : prog A) (a : A) (st st' : state) : Prop :=
  exists o, emits m o a /\ bytes_ok o /\ marker_start o /\ parses st o st'.

Lemma decE_eoi st : decE (write_marker EOI) tt st st.
Proof.
  exists [255; 217]. split; [apply emits_write_all|]. split; [repeat constructor; lia|].
  split; [eexists _, _; split; [reflexivity|lia]|].
  intros fuel Hf. destruct fuel as [|fuel]; [cbn in Hf; lia|]. reflexivity.
Qed.

Lemma decE_bind {A B} (m : prog A) (f : A -> prog B) a b st st1 st2 :
  dec m a st st1 -> decE (f a) b st1 st2 -> decE (bind m f) b st st2.
Proof.
  intros (o1 & E1 & B1 & M1 & H1) (o2 & E2 & B2 & M2 & H2). exists (o1 ++ o2).
  split; [eapply emits_bind; eassumption|]. split; [now apply bytes_ok_app2|]. split.
  - destruct M1 as [->|(mk & r & -> & Hm)]; [exact M2|]. exists mk, (r ++ o2). now split.
  - apply H1; assumption.
Qed.

Lemma decE_bind0 {A B} (m : prog A) (f : A -> prog B) a b st st2 :
  emits m [] a -> decE (f a) b st st2 -> decE (bind m f) b st st2.
Proof.
  intros E1 (o2 & E2 & H2). exists o2. split; [eapply emits_bind0; eassumption|exact H2].
Qed.

Lemma decode_file m st f : decE m tt init_state st -> st_frame st = Some f ->
  exists bytes, emits (write_marker SOI ;;; m) bytes tt /\ bytes_ok bytes /\
    decode bytes = Some {| j_frame := f; j_app := st_app st; j_qt := st_qt st; j_ri := st_ri st;
                           j_log := st_log st; j_scans := st_scans st |}.
Proof.
  intros (o & He & Hb & _ & Hp) Hf. exists ([255; 216] ++ o).
  split; [eapply emits_bind; [apply emits_write_all|exact He]|].
  assert (Hb' : bytes_ok ([255; 216] ++ o)) by (apply bytes_ok_app2; [repeat constructor; lia|exact Hb]).
  split; [exact Hb'|].
  unfold decode. replace (forallb is_byte ([255; 216] ++ o)) with true.
  2:{ symmetry. apply forallb_forall. intros x Hx. unfold bytes_ok in Hb'. rewrite Forall_forall in Hb'.
      specialize (Hb' x Hx). unfold is_byte. lia. }
  cbn [app Z.eqb Pos.eqb andb]. rewrite (Hp (length o)) by lia. rewrite Hf. reflexivity.
Qed.

(** ** State after the header *)
Definition hstate (f : frame) (z0 z1 : list Z) (dcs acs : list (option table)) (ri : Z)
  (apps : list (Z * list Z)) (log : list entry) (had : list scan_info) : state :=
  {| st_frame := Some f; st_qt := [Some z0; Some z1; None; None]; st_dc := dcs; st_ac := acs;
     st_ri := ri; st_app := apps; st_log := log; st_scans := had |}.
Definition astate (apps : list (Z * list Z)) : state :=
  {| st_frame := None; st_qt := repeat None 4; st_dc := repeat None 4; st_ac := repeat None 4;
     st_ri := 0; st_app := apps; st_log := []; st_scans := [] |}.
Definition slots (n : nat) (t0 t1 : table) : list (option table) :=
  [Some t0; if (3 <=? n)%nat then Some t1 else None; None; None].

Definition restart_of (e : encoder) : Z := match e_restart e with Some r => r | None => 0 end.

Lemma path_weaken S U (ri : Z) (s0 : S) (next : S -> U -> S) (g g' : S -> U -> Prop) us :
  (forall s u, In u us -> g s u -> g' s u) -> forall t s, path S U ri s0 next g t s us -> path S U ri s0 next g' t s us.
Proof.
  induction us as [|u us IH]; intros Hg t s; cbn [path]; [auto|]. intros [H1 H2].
  split; [apply Hg; [now left|exact H1]|]. apply IH; [|exact H2]. intros s' u' Hu'. apply Hg. now right.
Qed.

Lemma filter_flat_map {X E} (f : E -> bool) (ent : X -> list E) (g : X -> bool) e l x :
  filter g l = [x] -> (forall y, In y l -> g y = false -> filter f (ent y) = []) ->
  filter f (ent x) = [e] -> filter f (flat_map ent l) = [e].
Proof.
  revert x. induction l as [|y l IH]; intros x Hg Hy Hx; [discriminate|].
  cbn [flat_map filter] in *. rewrite filter_app. destruct (g y) eqn:E1.
  - inversion Hg as [[E2 E3]]. subst y. rewrite Hx.
    replace (filter f (flat_map ent l)) with (@nil E); [reflexivity|].
    symmetry. assert (Hn : forall z, In z l -> g z = false).
    { intros z Hz. destruct (g z) eqn:Ez; [|reflexivity].
      assert (Hin : In z (filter g l)) by (apply filter_In; auto). rewrite E3 in Hin. destruct Hin. }
    clear - Hn Hy. induction l as [|z l IHl]; [reflexivity|]. cbn [flat_map]. rewrite filter_app.
    rewrite Hy, IHl; [reflexivity| | |right; now left|apply Hn; now left].
    + intros y Hin. apply Hy. cbn in Hin |- *. tauto.
    + intros y Hin. apply Hn. now right.
  - rewrite (Hy y (or_introl eq_refl) E1). cbn [app]. apply (IH x); auto. intros z Hz. apply Hy. now right.
Qed.

Lemma filter_flat_map_nil {X E} (f : E -> bool) (ent : X -> list E) l :
  (forall y, In y l -> filter f (ent y) = []) -> filter f (flat_map ent l) = [].
Proof.
  induction l as [|z l IHl]; intros Hy; [reflexivity|]. cbn [flat_map]. rewrite filter_app.
  rewrite Hy by now left. apply IHl. intros y Hin. apply Hy. now right.
Qed.

Lemma filter_unique {X} (g : X -> bool) l x :
  NoDup l -> In x l -> g x = true -> (forall y, In y l -> g y = true -> y = x) -> filter g l = [x].
Proof.
  intros Hnd. induction l as [|y l IH]; intros Hin Hg Hu; [destruct Hin|].
  inversion Hnd as [|? ? Hni Hnd']; subst. cbn [filter]. destruct Hin as [->|Hin].
  - rewrite Hg. f_equal. destruct (filter g l) as [|z r] eqn:E; [reflexivity|]. exfalso.
    assert (Hz : In z (filter g l)) by (rewrite E; now left). apply filter_In in Hz as [Hz1 Hz2].
    apply Hni. rewrite <- (Hu z); auto. now right.
  - destruct (g y) eqn:E.
    + exfalso. apply Hni. rewrite (Hu y); auto. now left.
    + apply IH; auto. intros z Hz. apply Hu. now right.
Qed.

Lemma enumerate_NoDup {A} (l : list A) : NoDup (enumerate l).
Proof.
  unfold enumerate. apply (NoDup_map_inv fst).
  assert (E : map fst (combine (zrange (zlen l)) l) = zrange (zlen l)).
  { assert (Hl : length (zrange (zlen l)) = length l) by (rewrite zrange_length; unfold zlen; lia).
    revert Hl. generalize (zrange (zlen l)) as z. clear. induction l as [|a l IH]; intros [|b z] Hl; try discriminate; [reflexivity|].
    cbn. f_equal. apply IH. cbn in Hl. lia. }
  rewrite E. apply zrange_NoDup.
Qed.

Lemma in_enum {A} (l : list A) i a : In (i, a) (enumerate l) <-> 0 <= i /\ nth_error l (Z.to_nat i) = Some a.
Proof.
  unfold enumerate. split.
  - intros Hin. apply (In_nth_error) in Hin as (k & Hk).
    assert (E : nth_error (combine (zrange (zlen l)) l) k =
      match nth_error (zrange (zlen l)) k, nth_error l k with Some a, Some b => Some (a, b) | _, _ => None end).
    { generalize (zrange (zlen l)) as l1. clear. intros l1. revert l1 k.
      induction l as [|b l IH]; intros [|a l1] [|k]; cbn; auto. now destruct (nth_error l1 k). }
    rewrite E in Hk. destruct (nth_error (zrange (zlen l)) k) eqn:E1; [|discriminate].
    destruct (nth_error l k) eqn:E2; [|discriminate]. inversion Hk; subst.
    assert (Hlt : (k < length l)%nat) by (apply nth_error_Some; rewrite E2; discriminate).
    rewrite zrange_nth in E1 by (unfold zlen; lia). inversion E1; subst.
    split; [lia|]. now rewrite Nat2Z.id.
  - intros [Hi Hn]. assert (Hlt : (Z.to_nat i < length l)%nat) by (apply nth_error_Some; rewrite Hn; discriminate).
    apply (nth_error_In _ (Z.to_nat i)).
    assert (E : nth_error (combine (zrange (zlen l)) l) (Z.to_nat i) =
      match nth_error (zrange (zlen l)) (Z.to_nat i), nth_error l (Z.to_nat i) with Some a, Some b => Some (a, b) | _, _ => None end).
    { generalize (zrange (zlen l)) as l1. generalize (Z.to_nat i) as k. clear. intros k l1. revert l1 k.
      induction l as [|b l IH]; intros [|a l1] [|k]; cbn; auto. now destruct (nth_error l1 k). }
    rewrite E, Hn, zrange_nth by (unfold zlen; lia). now rewrite Z2Nat.id.
Qed.

Lemma filter_enum {A} (l : list A) i a : nth_error l i = Some a ->
  filter (fun ic : Z * A => (Z.to_nat (fst ic) =? i)%nat) (enumerate l) = [(Z.of_nat i, a)].
Proof.
  intros Hi. apply filter_unique.
  - apply enumerate_NoDup.
  - apply in_enum. split; [lia|]. now rewrite Nat2Z.id.
  - cbn [fst]. rewrite Nat2Z.id. apply Nat.eqb_refl.
  - intros [j b] Hin E. apply in_enum in Hin as [Hj Hb]. cbn [fst] in E. apply Nat.eqb_eq in E.
    rewrite E in Hb. rewrite Hi in Hb. inversion Hb. subst. f_equal. lia.
Qed.

Section File.
  Variable P : platform.
  Variable HP : plat_ok P.
  Variable im : image.
  Variable pl : planes.
  Variable Him : image_ok im pl.
  Variable op : operations.
  Variable F : list Z -> list Z.
  Variable Hop : op_ok op F.
  Let W := im_width im.
  Let H := im_height im.
  Let n := Z.to_nat (num_components (im_color im)).
  Variable Hfit : W * H < 2 ^ (ubits P - 1).
  Variable cs : list component.
  Variables mh mv : Z.
  Variable Hcs : comps_ok cs mh mv.
  Variable Hn : length cs = n.
  Variables q0 q1 : qtable.
  Variable Hq0 : qtable_ok q0.
  Variable Hq1 : qtable_ok q1.
  Variable Hz0 : Forall (fun z => 0 < qt_get q0 z) ZIGZAG.
  Variable Hz1 : Forall (fun z => 0 < qt_get q1 z) ZIGZAG.
  Variable e : encoder.
  Let ri := restart_of e.
  Variable Hri : 0 <= ri < 2 ^ 16.
  Variable Hri1 : e_restart e <> Some 0.
  Variables (d0 a0 d1 a1 : htab) (bd0 ba0 bd1 ba1 : table).
  Let ht := [(d0, a0); (d1, a1)].
  Variable Vd0 : valid_tab d0 bd0.
  Variable Va0 : valid_tab a0 ba0.
  Variable Vd1 : (3 <= n)%nat -> valid_tab d1 bd1.
  Variable Va1 : (3 <= n)%nat -> valid_tab a1 ba1.

  Let prg := match e_prog e with Some _ => true | None => false end.
  Let z0 := map (qt_get q0) ZIGZAG.
  Let z1 := map (qt_get q1) ZIGZAG.
  Let hst := hstate (frame_of prg W H cs) z0 z1 (slots n bd0 bd1) (slots n ba0 ba1) ri.

  Lemma header_dec apps :
    dec (enc_write_frame_header P e cs ht im q0 q1) tt (astate apps) (hst apps [] []).
  Proof.
    unfold enc_write_frame_header. fold prg W H.
    eapply dec_bind; [eapply dec_write_sof; [exact Hcs|apply (io_width _ _ Him)|apply (io_height _ _ Him)|reflexivity]|].
    eapply dec_bind; [apply dec_write_q; [lia|reflexivity|exact Hz0]|].
    eapply dec_bind; [apply dec_write_q; [lia|reflexivity|exact Hz1]|].
    eapply dec_bind_emits; [apply emits_ret|]. cbn [fst snd].
    set (h := fun dcs acs r => hstate (frame_of prg W H cs) z0 z1 dcs acs r apps [] []).
    eapply dec_bind with (st1 := h [Some bd0; None; None; None] (repeat None 4) 0).
    { apply (dec_write_h P class_dc 0 d0 bd0 (h (repeat None 4) (repeat None 4) 0) Vd0 (or_introl eq_refl) (or_introl eq_refl) eq_refl). }
    eapply dec_bind with (st1 := h [Some bd0; None; None; None] [Some ba0; None; None; None] 0).
    { apply (dec_write_h P class_ac 0 a0 ba0 (h [Some bd0; None; None; None] (repeat None 4) 0) Va0 (or_intror eq_refl) (or_introl eq_refl) eq_refl). }
    assert (En : (3 <=? num_components (im_color im)) = (3 <=? n)%nat) by (unfold n; lia).
    rewrite En.
    eapply dec_bind with (st1 := h (slots n bd0 bd1) (slots n ba0 ba1) 0).
    - unfold slots. clear En. destruct (3 <=? n)%nat eqn:E3.
      + assert (H3 : (3 <= n)%nat) by lia.
        eapply dec_bind_emits; [apply emits_ret|]. cbn [fst snd].
        eapply dec_bind with (st1 := h [Some bd0; Some bd1; None; None] [Some ba0; None; None; None] 0).
        { apply (dec_write_h P class_dc 1 d1 bd1 (h [Some bd0; None; None; None] [Some ba0; None; None; None] 0) (Vd1 H3) (or_introl eq_refl) (or_intror eq_refl) eq_refl). }
        apply (dec_write_h P class_ac 1 a1 ba1 (h [Some bd0; Some bd1; None; None] [Some ba0; None; None; None] 0) (Va1 H3) (or_intror eq_refl) (or_intror eq_refl) eq_refl).
      + apply dec_ret.
    - unfold hst. unfold ri, restart_of in *. destruct (e_restart e) as [r|].
      + apply (dec_write_dri r (h (slots n bd0 bd1) (slots n ba0 ba1) 0)); [|reflexivity..].
        assert (r <> 0) by congruence. lia.
      + apply dec_ret.
  Qed.

  (** Slots. *)
  Lemma slot_q apps log had c : In c cs -> is_some (slot (st_qt (hst apps log had)) (c_qt c)) = true.
  Proof.
    intros Hin. apply In_nth_error in Hin as (i & Hi). pose proof (cs_comp _ _ _ Hcs _ _ Hi) as Hc.
    destruct (ck_qt _ _ _ _ _ Hc) as [E|[E _]]; rewrite E; reflexivity.
  Qed.
  Lemma slot_sel2 t0 t1 c : In c cs -> slot (slots n t0 t1) (c_qt c) = Some (sel2 t0 t1 (c_qt c)).
  Proof.
    intros Hin. apply In_nth_error in Hin as (i & Hi). pose proof (cs_comp _ _ _ Hcs _ _ Hi) as Hc.
    rewrite Hn in Hc. destruct (ck_qt _ _ _ _ _ Hc) as [E|[E E3]]; rewrite E; [reflexivity|].
    unfold slots, slot, sel2. replace (3 <=? n)%nat with true by lia. reflexivity.
  Qed.
  Lemma c_tabs c : In c cs -> c_dc c = c_qt c /\ c_ac c = c_qt c.
  Proof.
    intros Hin. apply In_nth_error in Hin as (i & Hi). pose proof (cs_comp _ _ _ Hcs _ _ Hi) as Hc.
    split; [apply (ck_dc _ _ _ _ _ Hc)|apply (ck_ac _ _ _ _ _ Hc)].
  Qed.
  Lemma index_ht2 c : In c cs ->
    dc_table ht c = Ret (sel2 d0 d1 (c_qt c)) /\ ac_table ht c = Ret (sel2 a0 a1 (c_qt c)).
  Proof.
    intros Hin. destruct (c_tabs c Hin) as [E1 E2]. unfold dc_table, ac_table. rewrite E1, E2.
    apply In_nth_error in Hin as (i & Hi). pose proof (cs_comp _ _ _ Hcs _ _ Hi) as Hc.
    destruct (ck_qt _ _ _ _ _ Hc) as [E|[E _]]; rewrite E; split; reflexivity.
  Qed.

  Let blk := cblock im pl F mh mv q0 q1.
  Let uns := units im pl F mh mv q0 q1.
  Let blocks := map (fun '(i, c) => map snd (uns (Z.to_nat i) c)) (enumerate cs).

  Lemma index_blocks i c : In (i, c) (enumerate cs) -> index blocks i = Ret (map snd (uns (Z.to_nat i) c)).
  Proof.
    intros Hin. apply in_enum in Hin as [Hi Hc]. apply index_nth; [exact Hi|]. unfold blocks.
    rewrite nth_error_map.
    assert (E : nth_error (enumerate cs) (Z.to_nat i) = Some (i, c)).
    { unfold enumerate. assert (Hlt : (Z.to_nat i < length cs)%nat) by (apply nth_error_Some; rewrite Hc; discriminate).
      assert (E : nth_error (combine (zrange (zlen cs)) cs) (Z.to_nat i) =
      match nth_error (zrange (zlen cs)) (Z.to_nat i), nth_error cs (Z.to_nat i) with Some a, Some b => Some (a, b) | _, _ => None end).
      { generalize (zrange (zlen cs)) as l1. generalize (Z.to_nat i) as k. clear. intros k l1. revert l1 k.
        induction cs as [|b l IH]; intros [|a l1] [|k]; cbn; auto. now destruct (nth_error l1 k). }
      rewrite E, Hc, zrange_nth by (unfold zlen; lia). now rewrite Z2Nat.id. }
    rewrite E. reflexivity.
  Qed.

  Lemma blocks_emits : emits (encode_blocks P op cs im q0 q1) [] blocks.
  Proof.
    apply (encode_blocks_ok im pl Him op F Hop cs mh mv Hcs Hn q0 q1 Hq0 Hq1 P).
    fold W H. pose proof (cs_mh _ _ _ Hcs) as Hmh. pose proof (cs_mv _ _ _ Hcs) as Hmv.
    pose proof (io_width _ _ Him) as HW. pose proof (io_height _ _ Him) as HH. fold W in HW. fold H in HH.
    pose proof (ceil_div_spec W (8 * mh) ltac:(lia)) as S1.
    pose proof (ceil_div_spec H (8 * mv) ltac:(lia)) as S2.
    set (nc := ceil_div W (8 * mh)) in *. set (nr := ceil_div H (8 * mv)) in *. clearbody nc nr.
    clear - Hfit HP Hmh Hmv HW HH S1 S2.
    assert (B1 : 0 <= nc * mh * 8 <= W + 31) by nia. assert (B2 : 0 <= nr * mv * 8 <= H + 31) by nia.
    assert (B3 : nc * mh * (nr * mv) * 64 <= (W + 31) * (H + 31)) by nia.
    assert (B4 : (W + 31) * (H + 31) <= W * H + 31 * (W + H) + 961) by lia.
    destruct HP as [E|E]; rewrite E in *; [change (2 ^ (32 - 1)) with 2147483648 in *; change (2 ^ 32) with 4294967296|
      change (2 ^ (64 - 1)) with 9223372036854775808 in *; change (2 ^ 64) with 18446744073709551616]; lia.
  Qed.

  (** ** Sequential *)
  Definition seq_paths : Prop := forall i c, nth_error cs i = Some c ->
    path Z unitb ri 0 (fun _ u => zn (snd u) 0)
      (seq_good i (sel2 d0 d1 (c_qt c)) (sel2 a0 a1 (c_qt c)) (sel2 bd0 bd1 (c_qt c)) (sel2 ba0 ba1 (c_qt c)))
      ri 0 (uns i c).

  Definition seq_log (l : list (Z * component)) : list entry :=
    flat_map (fun '(i, c) => flat_map seq_entry (uns (Z.to_nat i) c)) l.
  (** Scans of single components with one band. *)
  Definition one_scan (ss se : Z) (ic : Z * component) : scan_info :=
    {| si_comps := [Z.to_nat (fst ic)]; si_ss := ss; si_se := se |}.
  Lemma had_of_in se l more : forall i c, In (i, c) l -> had_dc (map (one_scan 0 se) l ++ more) (Z.to_nat i) = true.
  Proof.
    intros i c Hin. unfold had_dc. apply existsb_exists. exists (one_scan 0 se (i, c)). split.
    - apply in_or_app. left. now apply in_map.
    - cbn. now rewrite Nat.eqb_refl.
  Qed.

  Definition seq_prog (w : bitw) : prog bitw :=
    foldM (fun w '(i, c) =>
      write_scan_header [c] None ;;;
      let* bs := index blocks i in
      let* dc := dc_table ht c in
      let* ac := ac_table ht c in
      sequential_scan P ri bs dc ac w)
      (enumerate cs) w.

  Lemma split_enum pre x post : enumerate cs = pre ++ x :: post -> In x (enumerate cs).
  Proof. intros E. rewrite E. apply in_or_app. right. now left. Qed.

  Lemma seq_dec apps : prg = false -> seq_paths ->
    dec (seq_prog (bitw_new P)) (bitw_new P) (hst apps [] [])
        (hst apps (seq_log (enumerate cs)) (map (one_scan 0 63) (enumerate cs))).
  Proof.
    intros Hprg Hpaths.
    apply (dec_foldM _ _ (enumerate cs) (fun pre => hst apps (seq_log pre) (map (one_scan 0 63) pre)) []); [|reflexivity].
    intros pre [i c] post Epre. pose proof (split_enum _ _ _ Epre) as Hic.
    pose proof (index_blocks _ _ Hic) as Eb. apply in_enum in Hic as [Hi Hc].
    assert (HinC : In c cs) by (eapply nth_error_In; exact Hc).
    destruct (index_ht2 c HinC) as [Et1 Et2]. destruct (c_tabs c HinC) as [Ec1 Ec2].
    rewrite Eb, Et1, Et2. cbn [bind].
    replace (hst apps (seq_log (pre ++ [(i, c)])) (map (one_scan 0 63) (pre ++ [(i, c)]))) with
      (add_scan (hst apps (seq_log pre) (map (one_scan 0 63) pre)) (flat_map seq_entry (uns (Z.to_nat i) c))
         {| si_comps := map fst [(Z.to_nat i, c)]; si_ss := 0; si_se := 63 |}).
    2:{ unfold add_scan, hst, hstate. cbn [st_frame st_qt st_dc st_ac st_ri st_app st_log st_scans].
        unfold seq_log. rewrite flat_map_app, map_app. cbn [flat_map map fst app].
        rewrite app_nil_r. reflexivity. }
    change [c] with (map snd [(Z.to_nat i, c)]).
    apply (dec_scan P prg W H cs mh mv (hst apps (seq_log pre) (map (one_scan 0 63) pre)) [(Z.to_nat i, c)] None 0 63
            (fun w => sequential_scan P ri (map snd (uns (Z.to_nat i) c)) (sel2 d0 d1 (c_qt c)) (sel2 a0 a1 (c_qt c)) w)
            (flat_map seq_entry (uns (Z.to_nat i) c)) Hcs eq_refl); try (cbn [length]; lia); try reflexivity.
    - now apply (selects_one cs mh mv).
    - intros k [<-|[]]. exact HinC.
    - unfold spectral_ok. rewrite Hprg. reflexivity.
    - intros k [<-|[]]. now apply slot_q.
    - intros _ k [<-|[]]. cbn [snd hst hstate st_dc]. rewrite Ec1, slot_sel2 by assumption. reflexivity.
    - intros _ k [<-|[]]. cbn [snd hst hstate st_ac]. rewrite Ec2, slot_sel2 by assumption. reflexivity.
    - set (sc := scan_of _ _ _ _ _). cbn [map fst snd scan_mcus hst hstate st_ri].
      pose proof (single_mcus_units im pl F cs mh mv Hcs q0 q1 prg _ c Hc) as Es. fold W H uns in Es. rewrite Es. clear Es.
      apply (sequential_scan_ok P HP ri Hri (length cs) (Z.to_nat i)
              ltac:(apply nth_error_Some; rewrite Hc; discriminate) _ _ (sel2 bd0 bd1 (c_qt c)) (sel2 ba0 ba1 (c_qt c)) sc).
      + unfold seq_scan_params, sc, scan_of. cbn [sc_ss sc_se sc_dc sc_ac map fst snd table_for].
        rewrite Nat.eqb_refl. cbn [hst hstate st_dc st_ac]. rewrite Ec1, Ec2, !slot_sel2 by assumption. auto.
      + apply (units_nonempty im pl Him F cs mh mv Hcs Hn q0 q1 _ _ Hc).
      + apply Hpaths. exact Hc.
  Qed.

  (** ** Progressive *)
  Definition bands (scans : Z) : list (Z * Z) :=
    map (fun scan => (Z.max (scan * (64 / (scans - 1))) 1,
                      if scan =? scans - 1 - 1 then 64 else (scan + 1) * (64 / (scans - 1))))
        (zrange (scans - 1)).

  Definition dc_paths : Prop := forall i c, nth_error cs i = Some c ->
    path Z unitb ri 0 (fun _ u => zn (snd u) 0)
      (dc_good i (sel2 d0 d1 (c_qt c)) (sel2 bd0 bd1 (c_qt c))) ri 0 (uns i c).
  Definition ac_paths (bs : list (Z * Z)) : Prop := forall i c b, nth_error cs i = Some c -> In b bs ->
    Forall (ac_good i (sel2 a0 a1 (c_qt c)) (sel2 ba0 ba1 (c_qt c)) (fst b) (snd b) tt) (uns i c).

  Definition dc_log (l : list (Z * component)) : list entry :=
    flat_map (fun '(i, c) => flat_map dc_entry (uns (Z.to_nat i) c)) l.
  Definition ac_log (b : Z * Z) (l : list (Z * component)) : list entry :=
    flat_map (fun '(i, c) => flat_map (ac_entry (fst b) (snd b)) (uns (Z.to_nat i) c)) l.
  Definition ac_logs (bs : list (Z * Z)) : list entry := flat_map (fun b => ac_log b (enumerate cs)) bs.

  Definition dc_prog (w : bitw) : prog bitw :=
    foldM (fun w '(i, c) =>
      write_scan_header [c] (Some (0, 0)) ;;;
      let* bs := index blocks i in
      let* dc := dc_table ht c in
      dc_scan P ri bs dc w)
      (enumerate cs) w.

  Lemma dc_dec apps : prg = true -> dc_paths ->
    dec (dc_prog (bitw_new P)) (bitw_new P) (hst apps [] [])
        (hst apps (dc_log (enumerate cs)) (map (one_scan 0 0) (enumerate cs))).
  Proof.
    intros Hprg Hpaths.
    apply (dec_foldM _ _ (enumerate cs) (fun pre => hst apps (dc_log pre) (map (one_scan 0 0) pre)) []); [|reflexivity].
    intros pre [i c] post Epre. pose proof (split_enum _ _ _ Epre) as Hic.
    pose proof (index_blocks _ _ Hic) as Eb. apply in_enum in Hic as [Hi Hc].
    assert (HinC : In c cs) by (eapply nth_error_In; exact Hc).
    destruct (index_ht2 c HinC) as [Et1 Et2]. destruct (c_tabs c HinC) as [Ec1 Ec2].
    rewrite Eb, Et1. cbn [bind].
    replace (hst apps (dc_log (pre ++ [(i, c)])) (map (one_scan 0 0) (pre ++ [(i, c)]))) with
      (add_scan (hst apps (dc_log pre) (map (one_scan 0 0) pre)) (flat_map dc_entry (uns (Z.to_nat i) c))
         {| si_comps := map fst [(Z.to_nat i, c)]; si_ss := 0; si_se := 0 |}).
    2:{ unfold add_scan, hst, hstate. cbn [st_frame st_qt st_dc st_ac st_ri st_app st_log st_scans].
        unfold dc_log. rewrite flat_map_app, map_app. cbn [flat_map map fst app].
        rewrite app_nil_r. reflexivity. }
    change [c] with (map snd [(Z.to_nat i, c)]).
    apply (dec_scan P prg W H cs mh mv (hst apps (dc_log pre) (map (one_scan 0 0) pre)) [(Z.to_nat i, c)] (Some (0, 0)) 0 0
            (fun w => dc_scan P ri (map snd (uns (Z.to_nat i) c)) (sel2 d0 d1 (c_qt c)) w)
            (flat_map dc_entry (uns (Z.to_nat i) c)) Hcs eq_refl); try (cbn [length]; lia); try reflexivity.
    - now apply (selects_one cs mh mv).
    - intros k [<-|[]]. exact HinC.
    - unfold spectral_ok. rewrite Hprg. reflexivity.
    - intros k [<-|[]]. now apply slot_q.
    - intros _ k [<-|[]]. cbn [snd hst hstate st_dc]. rewrite Ec1, slot_sel2 by assumption. reflexivity.
    - set (sc := scan_of _ _ _ _ _). cbn [map fst snd scan_mcus hst hstate st_ri].
      pose proof (single_mcus_units im pl F cs mh mv Hcs q0 q1 prg _ c Hc) as Es. fold W H uns in Es. rewrite Es. clear Es.
      apply (dc_scan_ok P HP ri Hri (length cs) (Z.to_nat i)
              ltac:(apply nth_error_Some; rewrite Hc; discriminate) _ (sel2 bd0 bd1 (c_qt c)) sc).
      + unfold dc_scan_params, sc, scan_of. cbn [sc_ss sc_se sc_dc sc_ac map fst snd table_for].
        rewrite Nat.eqb_refl. cbn [hst hstate st_dc st_ac]. rewrite Ec1, !slot_sel2 by assumption. auto.
      + apply (units_nonempty im pl Him F cs mh mv Hcs Hn q0 q1 _ _ Hc).
      + apply Hpaths. exact Hc.
  Qed.

  Let dcs := map (one_scan 0 0) (enumerate cs).
  Definition band_ok (b : Z * Z) : Prop := 1 <= fst b < snd b /\ snd b <= 64.

  Definition ac_prog1 (b : Z * Z) (w : bitw) : prog bitw :=
    foldM (fun w '(i, c) =>
      let* se := ck_u P 8 (wrap_u 8 (snd b) - 1) in
      write_scan_header [c] (Some (wrap_u 8 (fst b), se)) ;;;
      let* bs := index blocks i in
      let* ac := ac_table ht c in
      ac_scan P ri bs (fst b) (snd b) ac w)
      (enumerate cs) w.

  Lemma ac_dec1 apps b log more : prg = true -> band_ok b -> ac_paths [b] ->
    dec (ac_prog1 b (bitw_new P)) (bitw_new P) (hst apps log (dcs ++ more))
        (hst apps (log ++ ac_log b (enumerate cs)) (dcs ++ more ++ map (one_scan (fst b) (snd b - 1)) (enumerate cs))).
  Proof.
    intros Hprg Hb Hpaths. destruct b as [s en]. unfold band_ok in Hb. cbn [fst snd] in *. unfold ac_prog1. cbn [fst snd].
    replace (hst apps log (dcs ++ more)) with (hst apps (log ++ ac_log (s, en) []) (dcs ++ more ++ map (one_scan s (en - 1)) []))
      by (cbn [ac_log flat_map map]; now rewrite !app_nil_r).
    apply (dec_foldM _ _ (enumerate cs) (fun pre => hst apps (log ++ ac_log (s, en) pre) (dcs ++ more ++ map (one_scan s (en - 1)) pre)) []); [|reflexivity].
    intros pre [i c] post Epre. pose proof (split_enum _ _ _ Epre) as Hic.
    pose proof (fun more => had_of_in 0 _ more _ _ Hic) as Hhad.
    pose proof (index_blocks _ _ Hic) as Eb. apply in_enum in Hic as [Hi Hc].
    assert (HinC : In c cs) by (eapply nth_error_In; exact Hc).
    destruct (index_ht2 c HinC) as [Et1 Et2]. destruct (c_tabs c HinC) as [Ec1 Ec2].
    rewrite !wrap_u_id by lia. rewrite ck_u_ret by lia. cbn [bind].
    rewrite Eb, Et2. cbn [bind].
    replace (hst apps (log ++ ac_log (s, en) (pre ++ [(i, c)])) (dcs ++ more ++ map (one_scan s (en - 1)) (pre ++ [(i, c)]))) with
      (add_scan (hst apps (log ++ ac_log (s, en) pre) (dcs ++ more ++ map (one_scan s (en - 1)) pre)) (flat_map (ac_entry s en) (uns (Z.to_nat i) c))
         {| si_comps := map fst [(Z.to_nat i, c)]; si_ss := s; si_se := en - 1 |}).
    2:{ unfold add_scan, hst, hstate. cbn [st_frame st_qt st_dc st_ac st_ri st_app st_log st_scans].
        unfold ac_log. rewrite flat_map_app, map_app. cbn [flat_map map fst snd].
        rewrite app_nil_r, <- !app_assoc. reflexivity. }
    change [c] with (map snd [(Z.to_nat i, c)]).
    apply (dec_scan P prg W H cs mh mv (hst apps (log ++ ac_log (s, en) pre) (dcs ++ more ++ map (one_scan s (en - 1)) pre)) [(Z.to_nat i, c)] (Some (s, en - 1)) s (en - 1)
            (fun w => ac_scan P ri (map snd (uns (Z.to_nat i) c)) s en (sel2 a0 a1 (c_qt c)) w)
            (flat_map (ac_entry s en) (uns (Z.to_nat i) c)) Hcs eq_refl); try (cbn [length]; lia); try reflexivity.
    - now apply (selects_one cs mh mv).
    - intros k [<-|[]]. exact HinC.
    - unfold spectral_ok. rewrite Hprg. replace (s =? 0) with false by lia. cbn [length Nat.eqb]. lia.
    - intros k [<-|[]]. now apply slot_q.
    - intros _ k [<-|[]]. cbn [snd hst hstate st_ac]. rewrite Ec2, slot_sel2 by assumption. reflexivity.
    - intros _ k [<-|[]]. cbn [hst hstate st_scans fst]. apply Hhad.
    - set (sc := scan_of _ _ _ _ _). cbn [map fst snd scan_mcus hst hstate st_ri].
      pose proof (single_mcus_units im pl F cs mh mv Hcs q0 q1 prg _ c Hc) as Es. fold W H uns in Es. rewrite Es. clear Es.
      apply (ac_scan_ok P HP ri Hri (length cs) (Z.to_nat i) ltac:(apply nth_error_Some; rewrite Hc; discriminate) (sel2 a0 a1 (c_qt c)) (sel2 ba0 ba1 (c_qt c)) s en
              ltac:(lia) ltac:(lia) sc).
      + unfold ac_scan_params, sc, scan_of. cbn [sc_ss sc_se sc_dc sc_ac map fst snd table_for].
        rewrite Nat.eqb_refl. cbn [hst hstate st_dc st_ac]. rewrite Ec2, !slot_sel2 by assumption. auto.
      + apply (units_nonempty im pl Him F cs mh mv Hcs Hn q0 q1 _ _ Hc).
      + apply (Hpaths _ c (s, en) Hc). now left.
  Qed.

  Definition ac_scans (bs : list (Z * Z)) : list scan_info :=
    flat_map (fun b => map (one_scan (fst b) (snd b - 1)) (enumerate cs)) bs.

  Lemma ac_dec apps bs log : prg = true -> Forall band_ok bs -> ac_paths bs ->
    dec (foldM (fun w b => ac_prog1 b w) bs (bitw_new P)) (bitw_new P) (hst apps log dcs)
        (hst apps (log ++ ac_logs bs) (dcs ++ ac_scans bs)).
  Proof.
    intros Hprg Hb Hpaths.
    replace (hst apps log dcs) with (hst apps (log ++ ac_logs []) (dcs ++ ac_scans []))
      by (cbn [ac_logs ac_scans flat_map]; now rewrite !app_nil_r).
    apply (dec_foldM _ _ bs (fun pre => hst apps (log ++ ac_logs pre) (dcs ++ ac_scans pre)) []); [|reflexivity].
    intros pre b post E.
    assert (Hin : In b bs) by (rewrite E; apply in_or_app; right; now left).
    unfold ac_logs, ac_scans. rewrite !flat_map_app. cbn [flat_map]. rewrite !app_nil_r, app_assoc.
    apply ac_dec1; [exact Hprg| |].
    - rewrite Forall_forall in Hb. now apply Hb.
    - intros i c b' Hi [<-|[]]. now apply Hpaths.
  Qed.
End File.
