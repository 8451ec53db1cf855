(** Image buffers with internal state: what can go wrong, write errors, and sources that behave like an image. *)
From Verif Require Export MSource PWr PSafeEnc PCong.
From Verif Require Import SRows PGeom PTrace PRound.
From Coq Require Import ZArith List Bool Lia ZifyBool ZifyNat.
Import ListNotations.
Open Scope Z_scope.

(** ** Panics *)
Section Safe.
  Variable R : panic_reason -> Prop.
  Variable P : platform.
  Variable HR : R PIndex.
  Variable HO : dbg P = true -> R POverflow.
  Variable HD : dbg P = true -> R PDebugAssert.
  Variable HP : plat_ok P.
  Notation safe := (PSafe.safe R).
  Notation any := (fun _ => True).
  Variable op : operations.
  Hypothesis Hop : forall b, safe any (op_fdct op P b).
  Variable src : source.
  Hypothesis Hc : forall s, safe any (so_color src s).
  Hypothesis Hw : forall s, safe any (so_width src s).
  Hypothesis Hh : forall s, safe any (so_height src s).
  Hypothesis Hf : forall y b s, safe any (so_fill src y b s).

  (** the lemmas of PSafeEnc are stated for some image; any will do *)
  Let im0 : image := {| im_color := JLuma; im_width := 0; im_height := 0; im_fill := fun _ b => Ret b |}.
  Let Him : forall y b, safe any (im_fill im0 y b).
  Proof. intros y b. constructor. exact I. Qed.

  Ltac step := apply safe_bind_any; [|intros ?].

  Lemma safe_src_header e cs ht q0 q1 s : safe any (src_write_frame_header P src e cs ht q0 q1 s).
  Proof.
    unfold src_write_frame_header. apply safe_bind_any; [apply Hw|intros [w s1]]. apply safe_bind_any; [apply Hh|intros [h s2]].
    step.
    { unfold write_frame_header. do 6 (apply safe_bind_any; [apply safe_write_any|intros ?]). apply safe_foldM_any. intros.
      repeat (apply safe_bind_any; [apply safe_write_any|intros ?]). apply safe_write_any. }
    do 2 (step; [apply (safe_quant_segment R P HO HD im0 Him); lia|]). step; [now apply safe_index_any|].
    do 2 (step; [apply (safe_huffman_segment R P HO HD im0 Him); lia|]). apply safe_bind_any; [apply Hc|intros [c s3]].
    step.
    { destruct (3 <=? _); [|apply safe_ret_any]. step; [now apply safe_index_any|].
      step; [apply (safe_huffman_segment R P HO HD im0 Him); lia|]. apply (safe_huffman_segment R P HO HD im0 Him). lia. }
    step; [|apply safe_ret_any]. destruct (e_restart e); [|apply safe_ret_any]. unfold write_dri.
    repeat (apply safe_bind_any; [apply safe_write_any|intros ?]). apply safe_write_any.
  Qed.
  Lemma safe_src_rows w h bw ys st : safe any (src_fill_rows src w h bw ys st).
  Proof.
    unfold src_fill_rows. apply safe_foldM_any. intros [row s] y. cbv zeta. apply safe_bind_any; [apply Hf|intros [r s']]. apply safe_ret_any.
  Qed.
  Lemma safe_blocks_of cs w h mh mv bw q0 q1 row : safe any (blocks_of_rows P op cs w h mh mv bw q0 q1 row).
  Proof.
    unfold blocks_of_rows. cbv zeta. do 2 (step; [now apply safe_dassert_any|]). apply safe_mapM_any. intros [i c]. cbv beta iota zeta.
    do 2 (step; [now apply safe_dassert_any|]). step; [|apply safe_ret_any]. apply safe_mapM_any. intros y. apply safe_mapM_any. intros x.
    do 2 (step; [now apply safe_index_any|]). now apply safe_make_block.
  Qed.
  Lemma safe_src_blocks cs q0 q1 s : PSafeEnc.comps_ok cs -> safe any (src_blocks P op src cs q0 q1 s).
  Proof.
    intros Hcs. unfold src_blocks. apply safe_bind_any; [apply Hw|intros [w s1]]. apply safe_bind_any; [apply Hh|intros [h s2]].
    destruct (max_sampling cs) as [mh mv]. cbv zeta. do 2 (step; [now apply safe_dassert_any|]). step; [now apply safe_ck_usize_any|].
    step; [now apply safe_init_rows|]. apply safe_bind_any; [apply safe_src_rows|intros [row s3]]. step; [apply safe_blocks_of|]. apply safe_ret_any.
  Qed.

  Variable e : encoder.
  Hypothesis Hprog : match e_prog e with Some n => 2 <= n <= 64 | None => True end.
  Hypothesis Hhuff : Forall (fun t : htab * htab => tok (fst t) /\ tok (snd t)) (e_huff e).
  Hypothesis Hempty : e_components e = [].

  Lemma safe_src_sequential cs q0 q1 w s : PSafeEnc.comps_ok cs -> all_tables cs -> wok P w -> safe (wok P) (src_sequential P op src e cs q0 q1 w s).
  Proof.
    intros Hcs Ht Hwk. unfold src_sequential. apply safe_bind_any; [now apply safe_src_blocks|intros [blocks s1]].
    eapply safe_bind; [exact (safe_tables_for R P HR HO HD HP op Hop im0 Him e Hprog Hhuff cs blocks Ht)|]. intros ht Hht.
    step; [apply safe_src_header|]. cbv zeta.
    apply (safe_foldM R (wok P)); [|exact Hwk]. intros w1 [i c] _ Hw1. step; [apply safe_scan_header|].
    step; [now apply safe_index_any|]. eapply safe_bind; [exact (safe_dc_table R HR ht c Hht)|]. intros dc Hdc.
    eapply safe_bind; [exact (safe_ac_table R HR ht c Hht)|]. intros ac Hac.
    now apply (safe_sequential_scan R P HR HO HD HP im0 Him).
  Qed.
  Lemma safe_src_progressive n cs q0 q1 w s : 2 <= n <= 64 -> PSafeEnc.comps_ok cs -> all_tables cs -> wok P w ->
    safe (wok P) (src_progressive P op src e n cs q0 q1 w s).
  Proof.
    intros Hn Hcs Ht Hwk. unfold src_progressive. apply safe_bind_any; [now apply safe_src_blocks|intros [blocks s1]].
    eapply safe_bind; [exact (safe_tables_for R P HR HO HD HP op Hop im0 Him e Hprog Hhuff cs blocks Ht)|]. intros ht Hht.
    step; [apply safe_src_header|]. cbv zeta. eapply safe_bind.
    - apply (safe_foldM R (wok P)); [|exact Hwk]. intros w1 [i c] _ Hw1. step; [apply safe_scan_header|].
      step; [now apply safe_index_any|]. eapply safe_bind; [exact (safe_dc_table R HR ht c Hht)|]. intros dc Hdc.
      now apply (safe_dc_scan R P HR HO HD HP im0 Him).
    - intros w1 Hw1. step; [now apply (safe_bands R P HO HD HP im0 Him (prog_bands P)); [right|]|].
      apply (safe_foldM R (wok P)); [|exact Hw1]. intros w2 [a1 en] _ Hw2. apply (safe_foldM R (wok P)); [|exact Hw2]. intros w3 [i c] _ Hw3.
      step; [apply (safe_ck_u_any R P HO HD); lia|]. step; [apply safe_scan_header|].
      step; [now apply safe_index_any|]. eapply safe_bind; [exact (safe_ac_table R HR ht c Hht)|]. intros ac Hac.
      now apply (safe_ac_scan R P HR HO HD HP im0 Him).
  Qed.
  Lemma safe_src_interleaved cs q0 q1 w s : PSafeEnc.comps_ok cs -> wok P w -> safe (wok P) (src_interleaved P op src e cs q0 q1 w s).
  Proof.
    intros Hcs Hwk. unfold src_interleaved. step; [apply safe_src_header|]. step; [apply safe_scan_header|].
    destruct (max_sampling cs) as [mh mv]. apply safe_bind_any; [apply Hw|intros [wd s1]]. apply safe_bind_any; [apply Hh|intros [h s2]]. cbv zeta.
    step; [now apply safe_ck_usize_any|]. step; [now apply safe_init_rows|].
    eapply safe_bind.
    - apply (safe_foldM R (fun st => let '((w, _, _, _), _) := st in wok P w)); [|exact Hwk]. intros [st s3] y _ Hst.
      apply safe_bind_any; [apply safe_src_rows|intros [row s4]]. eapply safe_bind.
      + apply (safe_foldM R (fun st => let '(w, _, _, _) := st in wok P w)); [|exact Hst].
        intros [[[w1 prev] r] t] x _ Hw1. eapply safe_bind; [apply (safe_restart_before R P HO HD HP _ w1 [0;0;0;0] prev); exact Hw1|].
        intros [w2 p2] Hw2. cbn [fst] in Hw2. eapply safe_bind; [apply (safe_mcu R P HR HO HD HP op Hop); [exact Hhuff|exact Hw2]|].
        intros [w3 p3] Hw3. cbn [fst] in Hw3.
        apply safe_bind_any; [apply (safe_restart_after R P HO HD im0 Him)|intros [r' t']]. now constructor.
      + intros [[[w1 prev] r] t] Hw1. now constructor.
    - intros [[[[w1 prev] r] t] s3] Hw1. now apply safe_finalize.
  Qed.
  Lemma safe_src_internal s : safe any (src_internal P op src e s).
  Proof.
    unfold src_internal. step.
    { unfold src_is_empty. apply safe_bind_any; [apply Hw|intros [w s1]]. destruct (w =? 0); [apply safe_ret_any|]. apply safe_bind_any; [apply Hh|intros [h s2]]. apply safe_ret_any. }
    destruct a as [[] s1].
    { apply safe_bind_any; [apply Hw|intros [w s2]]. apply safe_bind_any; [apply Hh|intros [h s3]]. constructor. }
    step; [now apply safe_index_any|]. rewrite new_with_quality_ret. cbn [bind].
    step; [now apply safe_index_any|]. rewrite new_with_quality_ret. cbn [bind]. apply safe_bind_any; [apply Hc|intros [color s2]]. cbv zeta.
    rewrite Hempty. cbn [app]. destruct (comps_init R P HO HD im0 Him (e_sampling e) color) as [Hcs Ht].
    step; [apply safe_write_any|]. step; [apply (safe_header R)|].
    step; [destruct color; first [apply safe_ret_any|apply (safe_segment R P HO HD op Hop)]|].
    step; [apply safe_foldM_any; intros _ [nr d]; apply (safe_segment R P HO HD op Hop)|].
    assert (Hwk : wok P (bitw_new P)).
    { unfold wok, bitw_new. cbn [free_bits]. pose proof (buffer_size P HP). lia. }
    eapply safe_bind.
    - match goal with |- PSafe.safe _ _ (match _ with Some n => @?f n | None => ?g end) =>
        assert (G : forall o, o = e_prog e -> safe (wok P) (match o with Some n => f n | None => g end)); [|exact (G _ eq_refl)] end.
      cbv beta. intros [n|] Eo; [apply safe_src_progressive; [|assumption..]; pose proof Hprog as Hp; rewrite <- Eo in Hp; exact Hp|].
      destruct (_ || _); [now apply safe_src_sequential|now apply safe_src_interleaved].
    - intros w _. apply safe_write_any.
  Qed.
End Safe.

(** ** Programs of the same shape *)
Inductive rel {A B} (Q : A -> B -> Prop) : prog A -> prog B -> Prop :=
| rel_ret a b : Q a b -> rel Q (Ret a) (Ret b)
| rel_throw e : rel Q (Throw e) (Throw e)
| rel_panic r : rel Q (Panic r) (Panic r)
| rel_write bs k k' : (forall r, rel Q (k r) (k' r)) -> rel Q (WriteAll bs k) (WriteAll bs k').

Lemma rel_refl {A} (m : prog A) : rel eq m m.
Proof. induction m; constructor; auto. Qed.
Lemma rel_weaken {A B} (Q Q' : A -> B -> Prop) m m' : (forall a b, Q a b -> Q' a b) -> rel Q m m' -> rel Q' m m'.
Proof. intros W H. induction H; constructor; auto. Qed.
Lemma rel_bind {A B C D} (Q : A -> B -> Prop) (Q' : C -> D -> Prop) m m' f f' :
  rel Q m m' -> (forall a b, Q a b -> rel Q' (f a) (f' b)) -> rel Q' (bind m f) (bind m' f').
Proof. intros H Hf. induction H; cbn [bind]; try constructor; auto. Qed.
Lemma rel_bind_eq {A C D} (Q' : C -> D -> Prop) (m : prog A) f f' : (forall a, rel Q' (f a) (f' a)) -> rel Q' (bind m f) (bind m f').
Proof. intros H. apply (rel_bind eq); [apply rel_refl|]. intros a b <-. apply H. Qed.
Lemma rel_foldM {A B X} (I : list X -> A -> B -> Prop) (f : A -> X -> prog A) (f' : B -> X -> prog B) :
  (forall x l a b, I (x :: l) a b -> rel (I l) (f a x) (f' b x)) ->
  forall l a b, I l a b -> rel (I []) (foldM f l a) (foldM f' l b).
Proof.
  intros H. induction l as [|x l IH]; intros a b Hi; cbn [foldM]; [now constructor|].
  eapply rel_bind; [apply H; exact Hi|]. intros a' b' Hi'. now apply IH.
Qed.
Lemma rel_run {A} (m m' : prog A) : rel eq m m' -> forall S (w : S -> list Z -> S * option error) s, run w m s = run w m' s.
Proof.
  intros H S w. induction H as [a b <-|e|r|bs k k' H IH]; intros s; cbn [run]; try reflexivity. destruct (w s bs) as [s' r]. apply IH.
Qed.
Lemma rel_exec {A} (m m' : prog A) : rel eq m m' -> exec m = exec m'.
Proof. intros H. induction H as [a b <-|e|r|bs k k' H IH]; cbn [exec]; try reflexivity. now rewrite IH. Qed.

Lemma rel_tail {A} (m : prog A) (b : Type) (s : b) (Q : b -> Prop) : Q s -> rel (fun _ s' => Q s') m (m ;;; Ret s).
Proof. intros H. induction m; cbn [bind]; constructor; auto. Qed.

(** ** A source that serves the rows of an image *)
Section Serve.
  Variable src : source.
  Variable im : image.
  Variable Fit : bufs -> Prop.
  Hypothesis fit_pad : forall w bw bs, Fit bs -> Fit (pad_row w bw bs).
  Hypothesis fit_4 : forall bs, length bs = 4%nat -> Fit bs.
  Variable Ready : list Z -> so_state src -> Prop.
  Hypothesis Rc : forall todo s, Ready todo s -> exists s', so_color src s = Ret (im_color im, s') /\ Ready todo s'.
  Hypothesis Rw : forall todo s, Ready todo s -> exists s', so_width src s = Ret (im_width im, s') /\ Ready todo s'.
  Hypothesis Rh : forall todo s, Ready todo s -> exists s', so_height src s = Ret (im_height im, s') /\ Ready todo s'.
  Hypothesis Rf : forall y todo s bs, Ready (y :: todo) s -> Fit bs ->
    rel (fun bs' p => fst p = bs' /\ Fit bs' /\ Ready todo (snd p)) (im_fill im y bs) (so_fill src y bs s).

  Notation low := (fun y => Z.min y (im_height im - 1)).
  Ltac ask H R s' H' := let E := fresh in destruct (R _ _ H) as (s' & E & H'); rewrite E; cbn [bind]; clear E.

  Lemma rel_rows bw todo : forall ys row s, Ready (map low ys ++ todo) s -> Fit row ->
    rel (fun r p => fst p = r /\ Fit r /\ Ready todo (snd p)) (fill_rows im bw ys row) (src_fill_rows src (im_width im) (im_height im) bw ys (row, s)).
  Proof.
    intros ys row s H Hl. unfold fill_rows, src_fill_rows.
    apply (rel_foldM (fun l r (p : bufs * so_state src) => fst p = r /\ Fit r /\ Ready (map low l ++ todo) (snd p))); [|cbn [fst snd]; auto].
    clear ys row s H Hl. intros y l row [row' s] (E & Hl & H). cbn [fst snd map app] in *. subst row'. cbv zeta.
    eapply rel_bind; [apply Rf; [exact H|exact Hl]|]. intros r [r' s'] (E & Hr & H'). cbn [fst snd] in *. subst r'.
    constructor. cbn [fst snd]. auto.
  Qed.
  Lemma rel_header P e cs ht q0 q1 todo s : Ready todo s ->
    rel (fun _ s' => Ready todo s') (enc_write_frame_header P e cs ht im q0 q1) (src_write_frame_header P src e cs ht q0 q1 s).
  Proof.
    intros H. unfold enc_write_frame_header, src_write_frame_header. ask H Rw s1 H1. ask H1 Rh s2 H2.
    do 3 (apply rel_bind_eq; intros _). apply rel_bind_eq; intros h0. do 2 (apply rel_bind_eq; intros _). ask H2 Rc s3 H3.
    apply rel_bind_eq; intros _. now apply rel_tail.
  Qed.

  Variable cs : list component.
  Variables mh mv : Z.
  Variable Hcs : PGeom.comps_ok cs mh mv.
  Variable Hh : 0 <= im_height im.
  Let order := map low (zrange (ceil_div (im_height im) (8 * mv) * mv * 8)).

  Lemma rel_init_rows : rel (fun a b => b = a /\ length a = 4%nat) (init_rows cs) (init_rows cs).
  Proof. unfold init_rows. destruct (length cs) as [|[|[|[|[|]]]]]; constructor; split; reflexivity. Qed.

  Lemma rel_blocks P op q0 q1 s : Ready order s ->
    rel (fun bl p => fst p = bl /\ Ready [] (snd p)) (encode_blocks P op cs im q0 q1) (src_blocks P op src cs q0 q1 s).
  Proof.
    intros H. unfold encode_blocks, src_blocks. ask H Rw s1 H1. ask H1 Rh s2 H2. rewrite (cs_max _ _ _ Hcs). cbv zeta.
    do 3 (apply rel_bind_eq; intros _). eapply rel_bind; [apply rel_init_rows|]. intros row0 r0 [-> L0].
    eapply rel_bind; [apply (rel_rows _ []); [rewrite app_nil_r; exact H2|auto]|]. intros row [row' s3] (E & _ & H3). cbn [fst snd] in *. subst row'.
    change (rel (fun bl p => fst p = bl /\ Ready [] (snd p))
      (blocks_of_rows P op cs (im_width im) (im_height im) mh mv (ceil_div (im_width im) (8 * mh) * mh * 8) q0 q1 row)
      (let* blocks := blocks_of_rows P op cs (im_width im) (im_height im) mh mv (ceil_div (im_width im) (8 * mh) * mh * 8) q0 q1 row in Ret (blocks, s3))).
    generalize (blocks_of_rows P op cs (im_width im) (im_height im) mh mv (ceil_div (im_width im) (8 * mh) * mh * 8) q0 q1 row).
    intros m. induction m; cbn [bind]; constructor; auto.
  Qed.
  Lemma rel_sequential P op e q0 q1 w s : Ready order s ->
    rel eq (encode_image_sequential P op e cs im q0 q1 w) (src_sequential P op src e cs q0 q1 w s).
  Proof.
    intros H. unfold encode_image_sequential, src_sequential. eapply rel_bind; [apply rel_blocks; exact H|].
    intros bl [bl' s1] [E H1]. cbn [fst snd] in *. subst bl'. apply rel_bind_eq. intros ht.
    eapply rel_bind; [apply rel_header; exact H1|]. intros. apply rel_refl.
  Qed.
  Lemma rel_progressive P op e n q0 q1 w s : Ready order s ->
    rel eq (encode_image_progressive P op e n cs im q0 q1 w) (src_progressive P op src e n cs q0 q1 w s).
  Proof.
    intros H. unfold encode_image_progressive, src_progressive. eapply rel_bind; [apply rel_blocks; exact H|].
    intros bl [bl' s1] [E H1]. cbn [fst snd] in *. subst bl'. apply rel_bind_eq. intros ht.
    eapply rel_bind; [apply rel_header; exact H1|]. intros. apply rel_refl.
  Qed.
  Lemma rel_interleaved P op e q0 q1 w s : Ready order s ->
    rel eq (encode_image_interleaved P op e cs im q0 q1 w) (src_interleaved P op src e cs q0 q1 w s).
  Proof.
    intros H. unfold encode_image_interleaved, src_interleaved. eapply rel_bind; [apply rel_header; exact H|]. intros x0 s0 H0. cbn beta in H0.
    apply rel_bind_eq. intros _. rewrite (cs_max _ _ _ Hcs). ask H0 Rw s1 H1. ask H1 Rh s2 H2. cbv zeta.
    apply rel_bind_eq. intros _. eapply rel_bind; [apply rel_init_rows|]. intros row0 r0 [-> L0].
    pose proof (cs_mv _ _ _ Hcs) as Hmv.
    assert (Hc : 0 <= ceil_div (im_height im) (8 * mv)) by (pose proof (ceil_div_spec (im_height im) (8 * mv) ltac:(lia)); nia).
    set (want := fun block_y => map low (map (fun y => y + block_y * 8 * mv) (zrange (8 * mv)))).
    assert (Eo : order = flat_map want (zrange (ceil_div (im_height im) (8 * mv)))).
    { unfold order, want. rewrite <- (Z.mul_assoc _ mv 8), (Z.mul_comm mv 8), <- (zrange_blocks (ceil_div (im_height im) (8 * mv)) (8 * mv)) by lia.
      rewrite !flat_map_concat_map, concat_map, map_map. f_equal. apply map_ext. intros k. rewrite !map_map. apply map_ext. intros y. f_equal. lia. }
    rewrite Eo in H2. clear Eo.
    eapply rel_bind.
    - apply (rel_foldM (fun l st (p : (bitw * list Z * Z * Z) * so_state src) => fst p = st /\ Ready (flat_map want l) (snd p))); [|split; [reflexivity|exact H2]].
      intros y l st [st' s3] [E H3]. cbn [fst snd flat_map] in *. subst st'.
      eapply rel_bind; [apply (rel_rows _ (flat_map want l)); [exact H3|apply fit_4; now rewrite map_length]|].
      intros row [row' s4] (E & _ & H4). cbn [fst snd] in *. subst row'. cbv zeta.
      match goal with |- rel _ ?m _ => generalize m end. intros m. induction m; cbn [bind]; constructor; auto.
    - intros st [st' s3] [E H3]. cbn [fst] in E. subst st'. apply rel_refl.
  Qed.
End Serve.

Lemma rel_internal P op (src : source) im e (s : so_state src) (Fit : bufs -> Prop) (Ready : list Z -> so_state src -> Prop) : e_components e = [] -> 0 <= im_height im ->
  (forall w bw bs, Fit bs -> Fit (pad_row w bw bs)) -> (forall bs, length bs = 4%nat -> Fit bs) ->
  (forall todo s, Ready todo s -> exists s', so_color src s = Ret (im_color im, s') /\ Ready todo s') ->
  (forall todo s, Ready todo s -> exists s', so_width src s = Ret (im_width im, s') /\ Ready todo s') ->
  (forall todo s, Ready todo s -> exists s', so_height src s = Ret (im_height im, s') /\ Ready todo s') ->
  (forall y todo s bs, Ready (y :: todo) s -> Fit bs ->
    rel (fun bs' p => fst p = bs' /\ Fit bs' /\ Ready todo (snd p)) (im_fill im y bs) (so_fill src y bs s)) ->
  let mv := max_v (e_sampling e) (im_color im) in
  Ready (map (fun y => Z.min y (im_height im - 1)) (zrange (ceil_div (im_height im) (8 * mv) * mv * 8))) s ->
  rel eq (encode_image_internal P op e im) (src_internal P op src e s).
Proof.
  intros He Hh Fp F4 Rc Rw Rh Rf mv H. unfold encode_image_internal, src_internal, src_is_empty.
  destruct (Rw _ _ H) as (s1 & E1 & H1). rewrite E1. cbn [bind].
  destruct (im_width im =? 0) eqn:E0; cbn [orb bind].
  - destruct (Rw _ _ H1) as (s2 & E2 & H2). rewrite E2. cbn [bind]. destruct (Rh _ _ H2) as (s3 & E3 & H3). rewrite E3. cbn [bind]. constructor.
  - destruct (Rh _ _ H1) as (s2 & E2 & H2). rewrite E2. cbn [bind]. destruct (im_height im =? 0).
    + destruct (Rw _ _ H2) as (s3 & E3 & H3). rewrite E3. cbn [bind]. destruct (Rh _ _ H3) as (s4 & E4 & H4). rewrite E4. cbn [bind]. constructor.
    + do 4 (apply rel_bind_eq; intros ?). destruct (Rc _ _ H2) as (s3 & E3 & H3). rewrite E3. cbn [bind]. rewrite He. cbn [app]. cbv zeta.
      do 4 (apply rel_bind_eq; intros ?). pose proof (init_components_ok (e_sampling e) (im_color im)) as Hcs. fold mv in Hcs.
      apply (rel_bind eq); [|intros wu wv Ewv; subst wv; apply rel_refl].
      destruct (e_prog e); [eapply rel_progressive; eassumption|].
      destruct (_ || _); [eapply rel_sequential; eassumption|eapply rel_interleaved; eassumption].
Qed.

(** ** Write errors *)
Section Strict.
  Variable op : operations.
  Hypothesis Hop : op_wr op.
  Variable src : source.
  Hypothesis Hc : forall s, wr (so_color src s).
  Hypothesis Hw : forall s, wr (so_width src s).
  Hypothesis Hh : forall s, wr (so_height src s).
  Hypothesis Hf : forall y b s, wr (so_fill src y b s).
  Hint Resolve Hop Hc Hw Hh Hf wr_make_block wr_mcu : wr.

  Lemma wr_src_header P e cs ht q0 q1 s : wr (src_write_frame_header P src e cs ht q0 q1 s).
  Proof. unfold src_write_frame_header. wr_all. Qed.
  Hint Resolve wr_src_header : wr.
  Lemma wr_src_rows w h bw ys st : wr (src_fill_rows src w h bw ys st).
  Proof. unfold src_fill_rows. wr_all. Qed.
  Hint Resolve wr_src_rows : wr.
  Lemma wr_src_interleaved P e cs q0 q1 w s : wr (src_interleaved P op src e cs q0 q1 w s).
  Proof. unfold src_interleaved. wr_all. Qed.
  Lemma wr_blocks_of P cs w h mh mv bw q0 q1 row : wr (blocks_of_rows P op cs w h mh mv bw q0 q1 row).
  Proof. unfold blocks_of_rows. wr_all. Qed.
  Hint Resolve wr_blocks_of : wr.
  Lemma wr_src_blocks P cs q0 q1 s : wr (src_blocks P op src cs q0 q1 s).
  Proof. unfold src_blocks. wr_all. Qed.
  Hint Resolve wr_src_blocks : wr.
  Lemma wr_src_sequential P e cs q0 q1 w s : wr (src_sequential P op src e cs q0 q1 w s).
  Proof. unfold src_sequential. wr_all. Qed.
  Lemma wr_src_progressive P e n cs q0 q1 w s : wr (src_progressive P op src e n cs q0 q1 w s).
  Proof. unfold src_progressive. wr_all. Qed.
  Hint Resolve wr_src_interleaved wr_src_sequential wr_src_progressive : wr.
End Strict.
