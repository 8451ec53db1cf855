(** The exact bytes of the interleaved scan. *)
From Verif Require Export PBytes PInter.
From Verif Require Import T81 SFile SEncode PSegments PTop.
From Coq Require Import ZifyBool ZifyNat.
Local Ltac Zify.zify_post_hook ::= Z.div_mod_to_equations.

Fixpoint preds_after (cf : coefficients) (pred : nat -> Z) (us : list unit_pos) : nat -> Z :=
  match us with
  | [] => pred
  | (ci, y, x) :: rest => preds_after cf (fun i => if (i =? ci)%nat then cf ci y x 0 else pred i) rest
  end.

Section Units.
  Variables (dc ac : nat -> table) (ss se : Z) (cf : coefficients).
  Lemma encode_units_ext us : forall p q, (forall i, p i = q i) ->
    encode_units dc ac ss se cf p us = encode_units dc ac ss se cf q us.
  Proof.
    induction us as [|[[ci y] x] us IH]; intros p q E; [reflexivity|]. cbn [encode_units].
    rewrite (E ci). do 2 f_equal. apply IH. intros i. now destruct (i =? ci)%nat.
  Qed.
  Lemma preds_after_ext us : forall p q, (forall i, p i = q i) ->
    forall i, preds_after cf p us i = preds_after cf q us i.
  Proof.
    induction us as [|[[ci y] x] us IH]; intros p q E i; [apply E|]. cbn [preds_after].
    apply IH. intros j. now destruct (j =? ci)%nat.
  Qed.
  Lemma encode_units_app us vs : forall p,
    encode_units dc ac ss se cf p (us ++ vs) =
    encode_units dc ac ss se cf p us ++ encode_units dc ac ss se cf (preds_after cf p us) vs.
  Proof.
    induction us as [|[[ci y] x] us IH]; intros p; [reflexivity|]. cbn [app encode_units preds_after].
    now rewrite IH, <- !app_assoc.
  Qed.
  Lemma preds_after_app us vs : forall p i,
    preds_after cf p (us ++ vs) i = preds_after cf (preds_after cf p us) vs i.
  Proof. induction us as [|[[ci y] x] us IH]; intros p i; [reflexivity|]. apply IH. Qed.
End Units.

Definition lpred (s : list Z) (i : nat) : Z := nth i s 0.
Definition J (s : list Z) : Prop := length s = 4%nat /\ Forall (fun v => -1024 <= v <= 1023) s.

Section UBits.
  Variable P : platform.
  Variables (dc ac : nat -> table) (cf : coefficients).

  Definition ubi (f : bitw * list Z -> prog (bitw * list Z)) (pos : list unit_pos) (nx : list Z -> list Z) : Prop :=
    forall s, J s ->
      appendsS P (fun w => f (w, s)) (encode_units dc ac 0 63 cf (lpred s) pos) (nx s) /\ J (nx s) /\
      forall i, lpred (nx s) i = preds_after cf (lpred s) pos i.

  Lemma ubi_foldM {X} (F : bitw * list Z -> X -> prog (bitw * list Z)) px nx l :
    (forall x, In x l -> ubi (fun st => F st x) (px x) (nx x)) ->
    ubi (fun st => foldM F l st) (flat_map px l) (fun s => fold_left (fun s x => nx x s) l s).
  Proof.
    induction l as [|x l IH]; intros Hx s Hs.
    - split; [|split; [exact Hs|reflexivity]].
      intros w pend Hr. exists w, [], pend. split; [apply emits_ret|]. split; [constructor|].
      split; [exact Hr|]. now rewrite app_nil_r.
    - destruct (Hx x (or_introl eq_refl) s Hs) as (Ha1 & Hs1 & Hp1).
      destruct (IH (fun y Hy => Hx y (or_intror Hy)) _ Hs1) as (Ha2 & Hs2 & Hp2).
      split; [|split].
      + cbn [flat_map]. rewrite encode_units_app. intros w pend Hr.
        destruct (Ha1 w pend Hr) as (w1 & d1 & p1 & He1 & Ho1 & Hr1 & Hb1).
        destruct (Ha2 w1 p1 Hr1) as (w2 & d2 & p2 & He2 & Ho2 & Hr2 & Hb2).
        exists w2, (d1 ++ d2), p2. split; [|split; [|split]].
        * rewrite stuff_app. cbn [foldM fold_left]. eapply emits_bind; eassumption.
        * now apply bytes_ok_app.
        * exact Hr2.
        * rewrite (encode_units_ext dc ac 0 63 cf _ _ _ (fun i => eq_sym (Hp1 i))).
          rewrite bits_of_bytes_app, app_assoc, Hb1, <- app_assoc, Hb2, app_assoc. reflexivity.
      + exact Hs2.
      + intros i. cbn [fold_left flat_map]. rewrite preds_after_app, Hp2. now apply preds_after_ext.
  Qed.

  Lemma ubi_ext f g pos nx : (forall st, exec (f st) = exec (g st)) -> ubi g pos nx -> ubi f pos nx.
  Proof.
    intros E Hg s Hs. destruct (Hg s Hs) as (Ha & Hr). split; [|exact Hr]. intros w pend Hrep.
    destruct (Ha w pend Hrep) as (w' & d & p & He & Hrest). exists w', d, p. split; [|exact Hrest].
    unfold emits. rewrite E. exact He.
  Qed.
End UBits.

Section Inter.
  Variable P : platform.
  Variable HP : plat_ok P.
  Variable ri : Z.
  Variable Hri : 0 <= ri < 2 ^ 16.
  Variable im : image.
  Variable pl : planes.
  Variable Him : image_ok im pl.
  Variable op : operations.
  Variable F : list Z -> list Z.
  Variable Hop : op_ok op F.
  Let W := im_width im.
  Let H := im_height im.
  Let n := Z.to_nat (num_components (im_color im)).
  Variable cs : list component.
  Variables mh mv : Z.
  Variable Hcs : comps_ok cs mh mv.
  Variable Hn : length cs = n.
  Variables q0 q1 : qtable.
  Variable Hq0 : qtable_ok q0.
  Variable Hq1 : qtable_ok q1.
  Variables (d0 a0 d1 a1 : htab) (bd0 ba0 bd1 ba1 : table).
  Variable Hc0 : complete d0 a0 bd0 ba0.
  Variable Hc1 : complete d1 a1 bd1 ba1.
  Variable Nd0 : uniq_syms bd0.
  Variable Nd1 : uniq_syms bd1.
  Variable Na0 : uniq_syms ba0.
  Variable Na1 : uniq_syms ba1.
  Variables (dc ac : nat -> table).
  Variable Edc : forall i c, nth_error cs i = Some c -> dc i = sel2 bd0 bd1 (c_qt c).
  Variable Eac : forall i c, nth_error cs i = Some c -> ac i = sel2 ba0 ba1 (c_qt c).
  Variable cf : coefficients.
  Let blk := cblock im pl F mh mv q0 q1.
  Variable Hcf : forall i c y x k, nth_error cs i = Some c -> 0 <= k < 64 -> zn (blk i c y x) k = cf i y x k.

  (** Tables of a scan, for lemmas that ask for one. *)
  Definition sc0 : scan := {| sc_progressive := false; sc_ss := 0; sc_se := 63;
     sc_dc i := Some (dc i); sc_ac i := Some (ac i) |}.
  Lemma sc0_dc i c : nth_error cs i = Some c -> sc_dc sc0 i = Some (sel2 bd0 bd1 (c_dc c)).
  Proof.
    intros Hi. destruct (c_tabs cs mh mv Hcs c (nth_error_In _ _ Hi)) as [T1 T2].
    cbn [sc0 sc_dc]. now rewrite T1, (Edc i c Hi).
  Qed.
  Lemma sc0_ac i c : nth_error cs i = Some c -> sc_ac sc0 i = Some (sel2 ba0 ba1 (c_ac c)).
  Proof.
    intros Hi. destruct (c_tabs cs mh mv Hcs c (nth_error_In _ _ Hi)) as [T1 T2].
    cbn [sc0 sc_ac]. now rewrite T2, (Eac i c Hi).
  Qed.

  Lemma unit_ubi i c y x : nth_error cs i = Some c -> block_ok (blk i c y x) ->
    ubi P dc ac cf
      (fun '(w, prev_dc) =>
         let* prev := index prev_dc (Z.of_nat i) in
         let* w := write_block P w (blk i c y x) prev (sel2 d0 d1 (c_dc c)) (sel2 a0 a1 (c_ac c)) in
         Ret (w, upd prev_dc i (zn (blk i c y x) 0)))
      [(i, y, x)] (fun s => upd s i (zn (blk i c y x) 0)).
  Proof.
    intros Hi Hb s (Hl & Hf).
    assert (Hin : (i < 4)%nat).
    { pose proof (n_le_4 im) as H4. fold n in H4.
      assert (i < length cs)%nat by (apply nth_error_Some; rewrite Hi; discriminate). lia. }
    destruct (c_tabs cs mh mv Hcs c (nth_error_In _ _ Hi)) as [T1 T2].
    assert (Hv : nth_error s i = Some (lpred s i)).
    { unfold lpred. apply nth_error_nth'. lia. }
    assert (Hvb : -1024 <= lpred s i <= 1023).
    { rewrite Forall_forall in Hf. apply Hf. apply nth_error_In in Hv. exact Hv. }
    pose proof (sel2_complete d0 a0 d1 a1 bd0 ba0 bd1 ba1 Hc0 Hc1 (c_qt c)) as Hcd.
    split; [|split].
    - assert (Ha : appends P (fun w => write_block P w (blk i c y x) (lpred s i) (sel2 d0 d1 (c_qt c)) (sel2 a0 a1 (c_qt c)))
               (encode_dc (sel2 bd0 bd1 (c_qt c)) (lpred s i) (zn (blk i c y x) 0) ++
                encode_ac (sel2 ba0 ba1 (c_qt c)) 0 (slice (blk i c y x) 1 64))).
      { apply (write_block_bits P HP); try assumption.
        - unfold sel2. now destruct (c_qt c =? 0).
        - unfold sel2. now destruct (c_qt c =? 0).
        - left. eapply dc_complete; eassumption.
        - eapply ac_syms_complete; [exact Hcd| |lia]. apply Hb. }
      intros w pend Hrep. destruct (Ha w pend Hrep) as (w' & d & p & He & Hrest).
      exists w', d, p. split.
      + cbv beta iota. rewrite (index_nth _ _ (lpred s i)); [|lia|now rewrite Nat2Z.id]. cbn [bind].
        rewrite T1, T2. rewrite <- (app_nil_r (stuff d)). eapply emits_bind; [exact He|]. apply emits_ret.
      + cbn [encode_units]. change (0 =? 0) with true. cbv iota. rewrite app_nil_r.
        rewrite (Edc i c Hi), (Eac i c Hi). rewrite <- (Hcf i c y x 0 Hi) by lia.
        rewrite (agrees_slice cf i y x (blk i c y x) 1 64) in Hrest; [exact Hrest| |lia|lia].
        split; [apply Hb|]. cbn [fst snd]. intros k Hk. now apply Hcf.
    - split; [now rewrite upd_length|]. rewrite Forall_forall in *. intros v Hv'.
      apply In_nth_error in Hv' as (j & Hj). rewrite nth_error_upd in Hj.
      destruct ((i =? j)%nat && (i <? length s)%nat).
      + injection Hj as <-. apply Hb.
      + apply Hf. now apply nth_error_In in Hj.
    - intros j. cbn [preds_after]. unfold lpred at 1. rewrite <- (Hcf i c y x 0 Hi) by lia.
      destruct (Nat.eq_dec j i) as [->|Hne].
      + rewrite Nat.eqb_refl. apply nth_error_nth. rewrite nth_error_upd, Nat.eqb_refl.
        now replace (i <? length s)%nat with true by lia.
      + replace (j =? i)%nat with false by lia. unfold lpred.
        destruct (nth_error s j) as [v|] eqn:Ej.
        * rewrite (nth_error_nth s j 0 Ej). apply nth_error_nth. rewrite nth_error_upd.
          replace (i =? j)%nat with false by lia. exact Ej.
        * apply nth_error_None in Ej. rewrite !nth_overflow; [reflexivity|lia|rewrite upd_length; lia].
  Qed.

  Notation mstep := (mstep P im pl op cs mh mv q0 q1 d0 a0 d1 a1).
  Notation mnext := (mnext im pl F cs mh mv q0 q1).
  Notation mpos := (mpos cs).
  Notation mrows := (mrows im mv).
  Notation mcols := (mcols im mh).

  Lemma mstep_bits s u : J s -> mgood im mh mv s u ->
    appendsS P (mstep s u) (encode_units dc ac 0 63 cf (lpred s) (mpos u)) (mnext s u) /\
    J (mnext s u) /\ forall i, lpred (mnext s u) i = preds_after cf (lpred s) (mpos u) i.
  Proof.
    intros Hs Hg.
    enough (G : ubi P dc ac cf
      (fun st => write_mcu P op cs [(d0, a0); (d1, a1)] [q0; q1] mh mv (mbw im mh) (mrow im pl mh mv (fst u)) (snd u) st)
      (mpos u) (fun s => mnext s u)) by (exact (G s Hs)).
    unfold write_mcu, PInter.mpos, PInter.mnext.
    set (nx1 := fun (ic : Z * component) (s : list Z) =>
       fold_left (fun s v => fold_left (fun s h =>
       upd s (Z.to_nat (fst ic)) (zn (blk (Z.to_nat (fst ic)) (snd ic) (fst u * c_v (snd ic) + v) (snd u * c_h (snd ic) + h)) 0))
       (zrange (c_h (snd ic))) s) (zrange (c_v (snd ic))) s).
    assert (Enx : forall s, fold_left (fun s '(i, c) => fold_left (fun s v => fold_left (fun s h =>
       upd s (Z.to_nat i) (zn (blk (Z.to_nat i) c (fst u * c_v c + v) (snd u * c_h c + h)) 0))
       (zrange (c_h c)) s) (zrange (c_v c)) s) (enumerate cs) s =
       fold_left (fun s x => nx1 x s) (enumerate cs) s).
    { clear. induction (enumerate cs) as [|[i c] l IH]; intros s; cbn [fold_left]; [reflexivity|]. apply IH. }
    intros s1 Hs1. fold blk. rewrite Enx. revert s1 Hs1.
    refine (ubi_foldM P dc ac cf _ _ nx1 (enumerate cs) _).
    intros [i c] Hic. apply (in_enumerate im cs Hn) in Hic as [Hi0 Hic].
    unfold nx1. cbn [fst snd].
    refine (ubi_foldM P dc ac cf _ _ (fun v s => fold_left (fun s h =>
       upd s (Z.to_nat i) (zn (blk (Z.to_nat i) c (fst u * c_v c + v) (snd u * c_h c + h)) 0))
       (zrange (c_h c)) s) (zrange (c_v c)) _).
    intros v Hv. apply in_zrange in Hv.
    refine (ubi_foldM P dc ac cf _ _ (fun h s =>
       upd s (Z.to_nat i) (zn (blk (Z.to_nat i) c (fst u * c_v c + v) (snd u * c_h c + h)) 0))
       (zrange (c_h c)) _).
    intros h Hh. apply in_zrange in Hh.
    destruct (mcu_block P ri Hri im pl Him op F Hop cs mh mv Hcs Hn q0 q1 Hq0 Hq1 bd0 ba0 bd1 ba1 sc0 sc0_dc sc0_ac (Z.to_nat i) c u v h Hic Hg Hv Hh) as (r & Hr & He & Hb).
    eapply ubi_ext; [|apply (unit_ubi (Z.to_nat i) c _ _ Hic Hb)].
    intros [w prev]. cbv beta iota.
    rewrite (index_nth _ _ _ Hi0 Hr). cbn [bind].
    rewrite (index_q cs mh mv Hcs q0 q1 _ _ Hic). cbn [bind].
    rewrite exec_bind. unfold emits in He. rewrite He. cbn [app].
    destruct (index_ht cs mh mv Hcs d0 a0 d1 a1 c _ Hic) as [E1 E2]. rewrite E1, E2. cbn [bind].
    rewrite Z2Nat.id by assumption.
    match goal with |- (let '(o', r0) := ?X in (o', r0)) = ?Y => change Y with X; now destruct X end.
  Qed.

  Definition mbits (s : list Z) (u : Z * Z) : list bool := encode_units dc ac 0 63 cf (lpred s) (mpos u).
  Definition jgood (s : list Z) (u : Z * Z) : Prop := J s /\ mgood im mh mv s u.

  Lemma enc_mcus us : Forall (mgood im mh mv []) us -> forall s, J s ->
    enc (list Z) (Z * Z) mnext mbits s us = encode_units dc ac 0 63 cf (lpred s) (flat_map mpos us).
  Proof.
    induction us as [|u us IH]; intros HF s Hs; [reflexivity|].
    apply Forall_cons_iff in HF as [Hu HF]. cbn [enc flat_map].
    destruct (mstep_bits s u Hs Hu) as (_ & Hs1 & Hp). rewrite IH by assumption.
    rewrite encode_units_app. f_equal. now apply encode_units_ext.
  Qed.

  Lemma J0 : J [0; 0; 0; 0].
  Proof. split; [reflexivity|]. repeat constructor; lia. Qed.

  Lemma grid_good : Forall (mgood im mh mv []) (grid mrows mcols).
  Proof. apply Forall_forall. intros [y x] Hin. apply in_grid in Hin. exact Hin. Qed.

  Lemma inter_loop_bytes :
    emits (inter_loop P ri im op cs mh mv q0 q1 d0 a0 d1 a1 (bitw_new P))
          (coded_data 0 (spec_data ri dc ac cf 0 63 (map mpos (grid mrows mcols)))) (bitw_new P).
  Proof.
    unfold emits. rewrite (inter_loop_eq P ri im pl Him op F cs mh mv Hcs Hn q0 q1 d0 a0 d1 a1 bd0 ba0 bd1 ba1 sc0 sc0_dc sc0_ac).
    assert (E : spec_data ri dc ac cf 0 63 (map mpos (grid mrows mcols)) =
                map (data_of (list Z) (Z * Z) [0; 0; 0; 0] mnext mbits) (intervals ri (grid mrows mcols))).
    { unfold spec_data. rewrite intervals_map, map_map. apply map_ext_in. intros g Hg.
      unfold data_of. rewrite enc_mcus.
      - rewrite flat_map_concat_map. f_equal. apply encode_units_ext. intros i. unfold lpred. do 5 (destruct i as [|i]; [reflexivity|]). now rewrite nth_overflow by (cbn [length]; lia).
      - apply (PBytes.incl_Forall _ g (grid mrows mcols)); [now apply (intervals_incl ri)|apply grid_good].
      - apply J0. }
    rewrite E.
    apply (loop_bits P HP (list Z) (Z * Z) ri Hri [0;0;0;0] mstep mnext jgood mbits).
    - intros s u [Hs Hg]. now apply mstep_bits.
    - apply (grid_mcus_nonempty im pl Him F cs mh mv Hcs Hn q0 q1 bd0 ba0 bd1 ba1 sc0 sc0_dc sc0_ac).
    - apply (path_inv _ _ _ _ _ _ J); [apply J0| |apply J0].
      intros s u Hu Hs. assert (Hg : mgood im mh mv s u).
      { pose proof grid_good as G. rewrite Forall_forall in G. exact (G u Hu). }
      split; [now split|]. now apply mstep_bits.
  Qed.
End Inter.
