(** Component geometry and the quantized blocks of all components. *)
From Verif Require Export PImage.
From Verif Require Import T81.
From Coq Require Import ZifyBool ZifyNat FinFun.
Local Ltac Zify.zify_post_hook ::= Z.div_mod_to_equations.

(** ** Components *)
Definition comp_of (c : component) : comp :=
  {| co_id := c_id c; co_h := c_h c; co_v := c_v c; co_tq := c_qt c |}.
Definition frame_of (progressive : bool) (W H : Z) (cs : list component) : frame :=
  {| fr_progressive := progressive; fr_width := W; fr_height := H; fr_comps := map comp_of cs |}.

Record comp_ok (n : nat) (mh mv : Z) (i : nat) (c : component) : Prop := {
  ck_id : c_id c = Z.of_nat i;
  ck_qt : c_qt c = 0 \/ (c_qt c = 1 /\ (3 <= n)%nat);
  ck_dc : c_dc c = c_qt c;
  ck_ac : c_ac c = c_qt c;
  ck_h : c_h c = 1 \/ c_h c = mh;
  ck_v : c_v c = 1 \/ c_v c = mv
}.
Record comps_ok (cs : list component) (mh mv : Z) : Prop := {
  cs_len : (length cs = 1 \/ length cs = 3 \/ length cs = 4)%nat;
  cs_max : max_sampling cs = (mh, mv);
  cs_mh : mh = 1 \/ mh = 2 \/ mh = 4;
  cs_mv : mv = 1 \/ mv = 2 \/ mv = 4;
  cs_comp : forall i c, nth_error cs i = Some c -> comp_ok (length cs) mh mv i c
}.

Definition max_h (s : sampling) (color : jcolor) : Z :=
  match color with JLuma => 1 | _ => fst (sampling_factors s) end.
Definition max_v (s : sampling) (color : jcolor) : Z :=
  match color with JLuma => 1 | _ => snd (sampling_factors s) end.

Lemma init_components_ok s color :
  comps_ok (init_components s color) (max_h s color) (max_v s color).
Proof.
  constructor.
  - destruct s, color; cbn; lia.
  - destruct s, color; reflexivity.
  - destruct s, color; cbn; lia.
  - destruct s, color; cbn; lia.
  - intros i c Hc.
    destruct s, color;
      (destruct i as [|[|[|[|i]]]]; cbn in Hc; try discriminate; try (destruct i; discriminate);
       inversion Hc; subst; constructor; cbn; lia).
Qed.

Lemma init_components_length s color :
  length (init_components s color) = Z.to_nat (num_components color).
Proof. unfold init_components. destruct (sampling_factors s), color; reflexivity. Qed.

Lemma fold_max_lr f : forall (cs : list component) a,
  fold_left (fun m c => Z.max m (f c)) cs a = Z.max a (fold_right (fun c m => Z.max (f c) m) 1 cs) \/ a < 1.
Proof.
  induction cs as [|c cs IH]; intros a; cbn [fold_left fold_right]; [lia|].
  destruct (IH (Z.max a (f c))) as [->|]; lia.
Qed.

Lemma hmax_frame p W H cs mh mv : comps_ok cs mh mv -> hmax (frame_of p W H cs) = mh.
Proof.
  intros Hc. pose proof (cs_max _ _ _ Hc) as E. unfold max_sampling in E. inversion E as [[E1 E2]].
  destruct (fold_max_lr c_h cs 1) as [H1|]; [|lia].
  unfold hmax, frame_of. cbn [fr_comps].
  assert (G : forall l, fold_right (fun c m => Z.max (co_h c) m) 1 (map comp_of l) =
                        fold_right (fun c m => Z.max (c_h c) m) 1 l).
  { induction l as [|c l IH]; cbn; [reflexivity|]. now rewrite IH. }
  rewrite G. assert (1 <= fold_right (fun c m => Z.max (c_h c) m) 1 cs); [|lia].
  clear. induction cs as [|c cs IH]; cbn; lia.
Qed.
Lemma vmax_frame p W H cs mh mv : comps_ok cs mh mv -> vmax (frame_of p W H cs) = mv.
Proof.
  intros Hc. pose proof (cs_max _ _ _ Hc) as E. unfold max_sampling in E. inversion E as [[E1 E2]].
  destruct (fold_max_lr c_v cs 1) as [H1|]; [|lia].
  unfold vmax, frame_of. cbn [fr_comps].
  assert (G : forall l, fold_right (fun c m => Z.max (co_v c) m) 1 (map comp_of l) =
                        fold_right (fun c m => Z.max (c_v c) m) 1 l).
  { induction l as [|c l IH]; cbn; [reflexivity|]. now rewrite IH. }
  rewrite G. assert (1 <= fold_right (fun c m => Z.max (c_v c) m) 1 cs); [|lia].
  clear. induction cs as [|c cs IH]; cbn; lia.
Qed.

(** ** Divisions *)
Lemma ceil_div_spec v d : 0 < d -> (ceil_div v d - 1) * d < v <= ceil_div v d * d.
Proof.
  intros Hd. unfold ceil_div. pose proof (Z.div_mod v d ltac:(lia)).
  pose proof (Z.mod_pos_bound v d Hd). destruct (v mod d =? 0) eqn:E; nia.
Qed.
Lemma cdiv_spec v d : 0 < d -> (cdiv v d - 1) * d < v <= cdiv v d * d.
Proof.
  intros Hd. unfold cdiv. pose proof (Z.div_mod (v + d - 1) d ltac:(lia)).
  pose proof (Z.mod_pos_bound (v + d - 1) d Hd). nia.
Qed.
Lemma ceil_unique v d a b : 0 < d ->
  (a - 1) * d < v <= a * d -> (b - 1) * d < v <= b * d -> a = b.
Proof. intros. nia. Qed.
Lemma ceil_div_cdiv v d : 0 < d -> ceil_div v d = cdiv v d.
Proof. intros. eapply ceil_unique; [eassumption|now apply ceil_div_spec|now apply cdiv_spec]. Qed.
Lemma cdiv_cdiv v a b : 0 < a -> 0 < b -> cdiv (cdiv v a) b = cdiv v (a * b).
Proof.
  intros Ha Hb. pose proof (cdiv_spec v a Ha). pose proof (cdiv_spec (cdiv v a) b Hb).
  pose proof (cdiv_spec v (a * b) ltac:(nia)).
  eapply (ceil_unique v (a * b)); [nia| |assumption].
  set (x := cdiv (cdiv v a) b) in *. set (y := cdiv v a) in *. nia.
Qed.
Lemma cdiv_1 v : cdiv v 1 = v.
Proof. unfold cdiv. rewrite Z.div_1_r. lia. Qed.
Lemma cdiv_mul v d : 0 < d -> cdiv (v * d) d = v.
Proof. intros. pose proof (cdiv_spec (v * d) d H). nia. Qed.

(** ** Grids *)
Definition grid (rows cols : Z) : list (Z * Z) :=
  flat_map (fun y => map (fun x => (y, x)) (zrange cols)) (zrange rows).

Lemma in_grid rows cols y x : In (y, x) (grid rows cols) <-> 0 <= y < rows /\ 0 <= x < cols.
Proof.
  unfold grid. rewrite in_flat_map. split.
  - intros (y' & Hy & Hx). apply in_map_iff in Hx as (x' & E & Hx). inversion E; subst.
    apply in_zrange in Hy, Hx. auto.
  - intros [Hy Hx]. exists y. rewrite in_zrange. split; [assumption|]. apply in_map_iff.
    exists x. rewrite in_zrange. auto.
Qed.

Lemma zrange_NoDup n : NoDup (zrange n).
Proof.
  unfold zrange. apply FinFun.Injective_map_NoDup; [|apply seq_NoDup].
  intros a b E. lia.
Qed.

Lemma NoDup_app_intro {A} (l1 l2 : list A) :
  NoDup l1 -> NoDup l2 -> (forall x, In x l1 -> In x l2 -> False) -> NoDup (l1 ++ l2).
Proof.
  induction l1 as [|x l1 IH]; intros H1 H2 H; cbn [app]; [exact H2|].
  inversion H1; subst. constructor.
  - rewrite in_app_iff. intros [Hx|Hx]; [contradiction|]. apply (H x); [now left|exact Hx].
  - apply IH; auto. intros y Hy1 Hy2. apply (H y); [now right|exact Hy2].
Qed.

Lemma grid_NoDup rows cols : NoDup (grid rows cols).
Proof.
  unfold grid. generalize (zrange_NoDup rows). generalize (zrange rows) as ys.
  induction ys as [|y ys IH]; intros HN; cbn [flat_map]; [constructor|].
  inversion HN as [|? ? Hni HN']; subst. specialize (IH HN').
  assert (HM : NoDup (map (fun x => (y, x)) (zrange cols))).
  { apply FinFun.Injective_map_NoDup; [|apply zrange_NoDup]. intros a b E. now inversion E. }
  apply NoDup_app_intro; [exact HM|exact IH|].
  intros p Hp Hq. apply in_map_iff in Hp as (x & <- & _).
  apply in_flat_map in Hq as (y' & Hy' & Hq). apply in_map_iff in Hq as (x' & E & _).
  inversion E; subst. contradiction.
Qed.

Lemma upto_zrange n : upto n = zrange n.
Proof. reflexivity. Qed.

(** ** Geometry of one component *)
Definition hstride (mh : Z) (c : component) : Z := mh / c_h c.
Definition vstride (mv : Z) (c : component) : Z := mv / c_v c.
Definition ncols (W mh : Z) (c : component) : Z := ceil_div (ceil_div W 8) (hstride mh c).
Definition nrows (H mv : Z) (c : component) : Z := ceil_div (ceil_div H 8) (vstride mv c).

Lemma stride_cases m h : (m = 1 \/ m = 2 \/ m = 4) -> (h = 1 \/ h = m) ->
  (h = 1 /\ m / h = m) \/ (h = m /\ m / h = 1).
Proof.
  intros Hm [->| ->].
  - left. now rewrite Z.div_1_r.
  - right. split; [reflexivity|]. apply Z.div_same. lia.
Qed.

Lemma blocks_one W m h : (m = 1 \/ m = 2 \/ m = 4) -> (h = 1 \/ h = m) ->
  ceil_div (ceil_div W 8) (m / h) = cdiv (cdiv (W * h) m) 8.
Proof.
  intros Hm Hh. destruct (stride_cases m h Hm Hh) as [[-> ->]|[-> ->]].
  - rewrite !ceil_div_cdiv by lia. rewrite !cdiv_cdiv by lia. f_equal; lia.
  - rewrite !ceil_div_cdiv by lia. rewrite cdiv_1, cdiv_mul by lia. reflexivity.
Qed.

Lemma blocks_wide_eq p W H cs mh mv i c : comps_ok cs mh mv -> nth_error cs i = Some c ->
  blocks_wide (frame_of p W H cs) (comp_of c) = ncols W mh c.
Proof.
  intros Hc Hi. unfold blocks_wide, comp_width. rewrite (hmax_frame p W H cs mh mv Hc).
  cbn [comp_of co_h frame_of fr_width]. unfold ncols, hstride. symmetry.
  apply blocks_one; [apply (cs_mh _ _ _ Hc)|]. apply (ck_h _ _ _ _ _ (cs_comp _ _ _ Hc i c Hi)).
Qed.
Lemma blocks_high_eq p W H cs mh mv i c : comps_ok cs mh mv -> nth_error cs i = Some c ->
  blocks_high (frame_of p W H cs) (comp_of c) = nrows H mv c.
Proof.
  intros Hc Hi. unfold blocks_high, comp_height. rewrite (vmax_frame p W H cs mh mv Hc).
  cbn [comp_of co_v frame_of fr_height]. unfold nrows, vstride. symmetry.
  apply blocks_one; [apply (cs_mv _ _ _ Hc)|]. apply (ck_v _ _ _ _ _ (cs_comp _ _ _ Hc i c Hi)).
Qed.

Lemma stride_pos m h : (m = 1 \/ m = 2 \/ m = 4) -> (h = 1 \/ h = m) -> 1 <= m / h <= 4.
Proof. intros Hm Hh. destruct (stride_cases m h Hm Hh) as [[-> ->]|[-> ->]]; lia. Qed.

Lemma ceil_div_pos v d : 0 < d -> 1 <= v -> 1 <= ceil_div v d.
Proof. intros Hd Hv. pose proof (ceil_div_spec v d Hd). nia. Qed.

(** The blocks of a component fit into the buffer. *)
Lemma blocks_fit W m h b : (m = 1 \/ m = 2 \/ m = 4) -> (h = 1 \/ h = m) ->
  0 <= b < ceil_div (ceil_div W 8) (m / h) ->
  (b + 1) * (m / h) <= ceil_div W (8 * m) * m.
Proof.
  intros Hm Hh Hb. destruct (stride_cases m h Hm Hh) as [[-> E]|[-> E]]; rewrite E in *.
  - rewrite !ceil_div_cdiv in * by lia. rewrite cdiv_cdiv in Hb by lia. nia.
  - rewrite !ceil_div_cdiv in * by lia. rewrite cdiv_1 in Hb.
    pose proof (cdiv_spec W 8 ltac:(lia)). pose proof (cdiv_spec W (8 * m) ltac:(lia)).
    destruct Hm as [->|[->| ->]]; lia.
Qed.

(** ** encode_blocks *)
Definition qsel (q0 q1 : qtable) (c : component) : qtable := if c_qt c =? 0 then q0 else q1.

Section Blocks.
  Variable im : image.
  Variable pl : planes.
  Variable Him : image_ok im pl.
  Variable op : operations.
  Variable F : list Z -> list Z.
  Variable Hop : op_ok op F.
  Let W := im_width im.
  Let H := im_height im.
  Let n := Z.to_nat (num_components (im_color im)).
  Variable cs : list component.
  Variables mh mv : Z.
  Variable Hcs : comps_ok cs mh mv.
  Variable Hn : length cs = n.
  Variables q0 q1 : qtable.
  Variable Hq0 : qtable_ok q0.
  Variable Hq1 : qtable_ok q1.

  (** The expected block (y, x) of component number i. *)
  Definition cblock (i : nat) (c : component) (y x : Z) : list Z :=
    coef_block F pl W H (hstride mh c) (vstride mv c) (qsel q0 q1 c) i y x.

  Definition units (i : nat) (c : component) : list unitb :=
    map (fun '(y, x) => ((i, y, x), cblock i c y x)) (grid (nrows H mv c) (ncols W mh c)).

  Lemma qsel_ok c : qtable_ok (qsel q0 q1 c).
  Proof. unfold qsel. now destruct (c_qt c =? 0). Qed.

  Lemma index_q i c : nth_error cs i = Some c -> index [q0; q1] (c_qt c) = Ret (qsel q0 q1 c).
  Proof.
    intros Hi. destruct (ck_qt _ _ _ _ _ (cs_comp _ _ _ Hcs i c Hi)) as [E|[E _]];
      unfold qsel; rewrite E; reflexivity.
  Qed.

  Lemma in_enumerate {A} (l : list A) i a : In (i, a) (enumerate l) ->
    0 <= i /\ nth_error l (Z.to_nat i) = Some a.
  Proof.
    unfold enumerate. intros Hin. apply (In_nth_error) in Hin as (k & Hk).
    assert (E : nth_error (combine (zrange (zlen l)) l) k =
      match nth_error (zrange (zlen l)) k, nth_error l k with Some a, Some b => Some (a, b) | _, _ => None end).
    { generalize (zrange (zlen l)) as l1. clear. intros l1. revert l1 k.
      induction l as [|b l IH]; intros [|a l1] [|k]; cbn; auto.
      now destruct (nth_error l1 k). }
    rewrite E in Hk. destruct (nth_error (zrange (zlen l)) k) eqn:E1; [|discriminate].
    destruct (nth_error l k) eqn:E2; [|discriminate]. inversion Hk; subst.
    assert (Hlt : (k < length l)%nat) by (apply nth_error_Some; rewrite E2; discriminate).
    rewrite zrange_nth in E1 by (unfold zlen; lia). inversion E1; subst.
    split; [lia|]. now rewrite Nat2Z.id.
  Qed.

  Lemma W_bounds : 1 <= W <= 65535. Proof. apply (io_width _ _ Him). Qed.
  Lemma H_bounds : 1 <= H <= 65535. Proof. apply (io_height _ _ Him). Qed.

  Lemma encode_blocks_ok P :
    ceil_div W (8 * mh) * mh * (ceil_div H (8 * mv) * mv) * 64 < 2 ^ ubits P ->
    emits (encode_blocks P op cs im q0 q1) []
          (map (fun '(i, c) => map snd (units (Z.to_nat i) c)) (enumerate cs)).
  Proof.
    intros Hfit. pose proof W_bounds as HW. pose proof H_bounds as HH.
    pose proof (cs_mh _ _ _ Hcs) as Hmh. pose proof (cs_mv _ _ _ Hcs) as Hmv.
    pose proof (ceil_div_pos W (8 * mh) ltac:(lia) ltac:(lia)) as Hc1.
    pose proof (ceil_div_pos H (8 * mv) ltac:(lia) ltac:(lia)) as Hc2.
    pose proof (ceil_div_pos W 8 ltac:(lia) ltac:(lia)) as Hc3.
    pose proof (ceil_div_pos H 8 ltac:(lia) ltac:(lia)) as Hc4.
    pose proof (ceil_div_spec W (8 * mh) ltac:(lia)) as Hs1.
    unfold encode_blocks. fold W H. rewrite (cs_max _ _ _ Hcs).
    set (nc := ceil_div W (8 * mh)) in *. set (nr := ceil_div H (8 * mv)) in *.
    eapply emits_bind0; [apply emits_debug_assert; nia|].
    eapply emits_bind0; [apply emits_debug_assert; nia|].
    eapply emits_bind0; [apply emits_ck_u; split; [nia|exact Hfit]|].
    eapply emits_bind0.
    { unfold init_rows. destruct (cs_len _ _ _ Hcs) as [E|[E|E]]; rewrite E; apply emits_ret. }
    cbv beta.
    assert (Hbw : W <= nc * mh * 8) by nia.
    eapply emits_bind0.
    { apply (fill_rows_ok im pl Him (nc * mh * 8)); [exact Hbw|].
      apply Forall_forall. intros y Hy. apply in_zrange in Hy. lia. }
    fold W H n. cbv beta.
    eapply emits_bind0; [apply emits_debug_assert; lia|].
    eapply emits_bind0; [apply emits_debug_assert; lia|].
    apply emits_mapM. intros [i c] Hic. apply in_enumerate in Hic as [Hi0 Hic].
    pose proof (cs_comp _ _ _ Hcs _ _ Hic) as Hc.
    pose proof (stride_pos mh (c_h c) Hmh (ck_h _ _ _ _ _ Hc)) as Hhs.
    pose proof (stride_pos mv (c_v c) Hmv (ck_v _ _ _ _ _ Hc)) as Hvs.
    assert (Hin : (Z.to_nat i < n)%nat) by (rewrite <- Hn; apply nth_error_Some; rewrite Hic; discriminate).
    pose proof (ceil_div_pos (ceil_div W 8) (mh / c_h c) ltac:(lia) Hc3) as Hc5.
    pose proof (ceil_div_pos (ceil_div H 8) (mv / c_v c) ltac:(lia) Hc4) as Hc6.
    eapply emits_bind0; [apply emits_debug_assert; apply Z.ltb_lt; clear - Hc5; lia|].
    eapply emits_bind0; [apply emits_debug_assert; apply Z.ltb_lt; clear - Hc6; lia|].
    eapply emits_bind0.
    { apply emits_mapM with (g := fun y => map (fun x => cblock (Z.to_nat i) c y x) (zrange (ncols W mh c))).
      intros y Hy. apply in_zrange in Hy. fold (vstride mv c) in Hy. fold (nrows H mv c) in Hy.
      apply emits_mapM. intros x Hx. apply in_zrange in Hx.
      eapply emits_bind0.
      { apply emits_index; [lia|]. apply buf_of_nth; [exact Hin|apply n_le_4]. }
      rewrite (index_q _ _ Hic). cbn [bind].
      pose proof (blocks_fit W mh (c_h c) x Hmh (ck_h _ _ _ _ _ Hc) Hx) as Hfx.
      pose proof (blocks_fit H mv (c_v c) y Hmv (ck_v _ _ _ _ _ Hc) Hy) as Hfy.
      fold nc in Hfx. fold nr in Hfy.
      unfold cblock, hstride, vstride.
      set (hs := mh / c_h c) in *. set (vs := mv / c_v c) in *.
      clearbody hs vs nc nr. clear - Him Hop Hin Hhs Hvs Hx Hy Hfx Hfy Hq0 Hq1.
      apply (make_block_ok im pl Him op F Hop); try assumption; try lia; try nia.
      - intros k Hk.
        rewrite zrange_nth by nia. f_equal. rewrite Z2Nat.id by nia. lia.
      - now apply qsel_ok. }
    cbv beta.
    replace (map snd (units (Z.to_nat i) c)) with
      (concat (map (fun y => map (fun x => cblock (Z.to_nat i) c y x) (zrange (ncols W mh c))) (zrange (nrows H mv c)))).
    { apply emits_ret. }
    unfold units, grid. rewrite !map_map, flat_map_concat_map.
    rewrite concat_map, map_map. f_equal. apply map_ext. intros y. rewrite map_map. reflexivity.
  Qed.

  Lemma units_nonempty i c : nth_error cs i = Some c -> units i c <> [].
  Proof.
    intros Hi. pose proof (cs_comp _ _ _ Hcs _ _ Hi) as Hc.
    pose proof W_bounds. pose proof H_bounds.
    pose proof (stride_pos mh (c_h c) (cs_mh _ _ _ Hcs) (ck_h _ _ _ _ _ Hc)) as Hhs.
    pose proof (stride_pos mv (c_v c) (cs_mv _ _ _ Hcs) (ck_v _ _ _ _ _ Hc)) as Hvs.
    assert (Hin : In (0, 0) (grid (nrows H mv c) (ncols W mh c))).
    { apply in_grid. unfold nrows, ncols, hstride, vstride.
      pose proof (ceil_div_pos (ceil_div W 8) (mh / c_h c) ltac:(lia) (ceil_div_pos W 8 ltac:(lia) ltac:(lia))).
      pose proof (ceil_div_pos (ceil_div H 8) (mv / c_v c) ltac:(lia) (ceil_div_pos H 8 ltac:(lia) ltac:(lia))).
      lia. }
    unfold units. intros E. apply map_eq_nil in E. rewrite E in Hin. destruct Hin.
  Qed.

  Lemma units_ok i c u : nth_error cs i = Some c -> In u (units i c) ->
    ci_of u = i /\ block_ok (snd u).
  Proof.
    intros Hi Hu. pose proof (cs_comp _ _ _ Hcs _ _ Hi) as Hc.
    apply in_map_iff in Hu as ([y x] & <- & Hg). apply in_grid in Hg as [Hy Hx].
    split; [reflexivity|]. cbn [snd]. unfold cblock.
    pose proof (stride_pos mh (c_h c) (cs_mh _ _ _ Hcs) (ck_h _ _ _ _ _ Hc)) as Hhs.
    pose proof (stride_pos mv (c_v c) (cs_mv _ _ _ Hcs) (ck_v _ _ _ _ _ Hc)) as Hvs.
    apply (coef_block_ok im pl Him op F Hop); unfold hstride, vstride; try lia.
    - fold n. rewrite <- Hn. apply nth_error_Some. rewrite Hi. discriminate.
    - apply qsel_ok.
  Qed.

  Lemma single_mcus_units p i c : nth_error cs i = Some c ->
    single_mcus (frame_of p W H cs) i (comp_of c) = map (fun u => [fst u]) (units i c).
  Proof.
    intros Hi. unfold single_mcus. rewrite (blocks_wide_eq p W H cs mh mv i c Hcs Hi).
    rewrite (blocks_high_eq p W H cs mh mv i c Hcs Hi). rewrite !upto_zrange.
    unfold units, grid. rewrite map_map, flat_map_concat_map. rewrite flat_map_concat_map.
    rewrite concat_map, map_map. f_equal. apply map_ext. intros y. rewrite map_map. reflexivity.
  Qed.
End Blocks.
