(** C69: with restart intervals, an image can be encoded in strips, and the files put together. *)
From Verif Require Import ThmApi ThmGrey.
From Verif Require Import MAvx2 T81 SFile SApi SEncode SHuff SMeta SLocal SPad SStrip PScan PQuant PApi PExec PEncode PBytes PBytesF PRound PGeom PAll PPad PAvxDct ThmRound ThmAvx2 ThmAll ThmLocal ThmPad ThmSizeS.
From Coq Require Import ZArith List Bool Lia ZifyBool ZifyNat.
Import ListNotations.
Open Scope Z_scope.

Lemma upto_add a b : 0 <= a -> 0 <= b -> upto (a + b) = upto a ++ map (fun i => a + i) (upto b).
Proof.
  intros Ha Hb. unfold upto. rewrite Z2Nat.inj_add, seq_app, map_app by lia. f_equal. rewrite map_map.
  rewrite Nat.add_0_l. rewrite <- (Nat.add_0_r (Z.to_nat a)) at 1.
  assert (G : forall n s, map Z.of_nat (seq (Z.to_nat a + s) n) = map (fun i => a + Z.of_nat i) (seq s n)).
  { induction n as [|n IH]; intros s; [reflexivity|]. cbn [seq map]. f_equal; [lia|]. rewrite <- IH, <- Nat.add_succ_r. reflexivity. }
  apply G.
Qed.
Lemma flat_map_map {A B C} (g : A -> B) (f : B -> list C) l : flat_map f (map g l) = flat_map (fun x => f (g x)) l.
Proof. induction l as [|x l IH]; [reflexivity|]. cbn [map flat_map]. now rewrite IH. Qed.
Lemma map_flat_map {A B C} (g : B -> C) (f : A -> list B) l : map g (flat_map f l) = flat_map (fun x => map g (f x)) l.
Proof. induction l as [|x l IH]; [reflexivity|]. cbn [flat_map]. now rewrite map_app, IH. Qed.

(** Whole groups first. *)
Lemma group_app {A} n m : (0 < n)%nat -> forall (a b : list A), length a = (m * n)%nat -> group (length (a ++ b)) n (a ++ b) = group (length a) n a ++ group (length b) n b.
Proof.
  intros Hn. induction m as [|m IH]; intros a b L.
  - destruct a; [reflexivity|discriminate].
  - assert (L1 : length (firstn n a) = n) by (rewrite firstn_length; nia).
    assert (L2 : length (skipn n a) = (m * n)%nat) by (rewrite skipn_length; nia).
    rewrite <- (firstn_skipn n a). generalize dependent (firstn n a). generalize dependent (skipn n a). clear a L. intros a2 L2 a1 L1.
    rewrite <- app_assoc. rewrite (group_full n a1 (a2 ++ b)), (group_full n a1 a2), IH by assumption. reflexivity.
Qed.
Lemma intervals_app {A} r (a b : list A) : 0 < r -> Z.of_nat (length a) mod r = 0 -> intervals r (a ++ b) = intervals r a ++ intervals r b.
Proof.
  intros Hr H. unfold intervals. destruct (Z.eqb_spec r 0); [lia|]. apply (group_app _ (Z.to_nat (Z.of_nat (length a) / r))); [lia|].
  pose proof (Z.div_mod (Z.of_nat (length a)) r ltac:(lia)) as E. rewrite H in E.
  assert (0 <= Z.of_nat (length a) / r) by (apply Z.div_pos; lia). nia.
Qed.

Lemma units_ext dc ac ss se (cf cf' : coefficients) (g : unit_pos -> unit_pos) : 0 <= ss -> se < 64 -> forall us pred,
  (forall ci y x, In (ci, y, x) us -> exists y', g (ci, y, x) = (ci, y', x) /\ forall k, 0 <= k < 64 -> cf ci y' x k = cf' ci y x k) ->
  encode_units dc ac ss se cf pred (map g us) = encode_units dc ac ss se cf' pred us.
Proof.
  intros Hss Hse. induction us as [|[[ci y] x] us IH]; intros pred H; [reflexivity|].
  destruct (H ci y x (or_introl eq_refl)) as (y' & E & K). cbn [map]. rewrite E. cbn [encode_units].
  rewrite (K 0) by lia. f_equal. f_equal.
  - f_equal. apply map_ext_in. intros i Hi. unfold band, upto in Hi. rewrite map_map in Hi. apply in_map_iff in Hi as (j & <- & Hj). apply in_seq in Hj. apply K. lia.
  - apply IH. intros ci2 y2 x2 Hi. apply H. now right.
Qed.

Lemma comp_steps s color w h c : let f := frame_for s color w h in In c (comps_of (s_sampling s) color) -> 0 < co_v c /\ 0 < step_y f c /\ vmax f = step_y f c * co_v c.
Proof. intros f H. destruct (steps_exact s color w h c H) as (_ & A & _ & B & _ & C). auto. Qed.
Lemma vmax_positive s color w h : 0 < vmax (frame_for s color w h).
Proof.
  assert (N : exists c, In c (comps_of (s_sampling s) color)) by (unfold comps_of; destruct (factors (s_sampling s)), color; cbn [In]; eauto).
  destruct N as [c Hc]. destruct (comp_steps s color w h c Hc) as (A & B & C). nia.
Qed.

Section Strips.
  Variables (t : tables) (s : settings) (color : jcolor) (w h1 h2 : Z).
  Let f := frame_for s color w (h1 + h2).
  Let f1 := frame_for s color w h1.
  Let f2 := frame_for s color w h2.
  Let cl := comps_of (s_sampling s) color.
  Variable k : Z.
  Variable Hk : 0 <= k.
  Variable Eh : h1 = k * (8 * vmax f).
  Variable Hh2 : 1 <= h2.

  Lemma comp_facts c : In c cl -> 0 < co_v c /\ 0 < step_y f c /\ vmax f = step_y f c * co_v c.
  Proof. exact (comp_steps s color w (h1 + h2) c). Qed.
  Lemma vmax_pos : 0 < vmax f.
  Proof. exact (vmax_positive s color w (h1 + h2)). Qed.
  Lemma cdiv_0 b : 0 < b -> cdiv 0 b = 0.
  Proof. intros Hb. apply cdiv_unique; lia. Qed.
  Lemma high1 c : In c cl -> blocks_high f1 c = k * co_v c.
  Proof.
    intros Hc. destruct (comp_facts c Hc) as (A & B & C). pose proof vmax_pos as V. unfold blocks_high, comp_height.
    change (vmax f1) with (vmax f). change (fr_height f1) with h1.
    replace (h1 * co_v c) with (0 + (8 * k * co_v c) * vmax f) by (rewrite Eh; ring). rewrite cdiv_shift, cdiv_0 by exact V.
    replace (0 + 8 * k * co_v c) with (0 + (k * co_v c) * 8) by ring. rewrite cdiv_shift, cdiv_0 by lia. lia.
  Qed.
  Lemma high c : In c cl -> blocks_high f c = k * co_v c + blocks_high f2 c.
  Proof.
    intros Hc. destruct (comp_facts c Hc) as (A & B & C). pose proof vmax_pos as V. unfold blocks_high, comp_height.
    change (vmax f2) with (vmax f). change (fr_height f) with (h1 + h2). change (fr_height f2) with h2.
    replace ((h1 + h2) * co_v c) with (h2 * co_v c + (8 * k * co_v c) * vmax f) by (rewrite Eh; ring). rewrite cdiv_shift by exact V.
    replace (cdiv (h2 * co_v c) (vmax f) + 8 * k * co_v c) with (cdiv (h2 * co_v c) (vmax f) + (k * co_v c) * 8) by ring. rewrite cdiv_shift by lia. lia.
  Qed.
  Lemma mhigh1 : mcus_high f1 = k.
  Proof.
    pose proof vmax_pos as V. unfold mcus_high. change (vmax f1) with (vmax f). change (fr_height f1) with h1.
    replace h1 with (0 + k * (8 * vmax f)) by lia. rewrite cdiv_shift, cdiv_0 by lia. lia.
  Qed.
  Lemma mhigh : mcus_high f = k + mcus_high f2.
  Proof.
    pose proof vmax_pos as V. unfold mcus_high. change (vmax f2) with (vmax f). change (fr_height f) with (h1 + h2). change (fr_height f2) with h2.
    replace (h1 + h2) with (h2 + k * (8 * vmax f)) by lia. rewrite cdiv_shift by lia. lia.
  Qed.

  Definition v_of (ci : nat) : Z := match nth_error cl ci with Some c => co_v c | None => 0 end.
  Definition shift (u : unit_pos) : unit_pos := let '(ci, y, x) := u in (ci, y + k * v_of ci, x).
  Definition wf_cs (cs : list (nat * comp)) : Prop := forall ci c, In (ci, c) cs -> nth_error cl ci = Some c.

  Lemma single_cut ci c : nth_error cl ci = Some c -> single_mcus f ci c = single_mcus f1 ci c ++ map (map shift) (single_mcus f2 ci c).
  Proof.
    intros Hc. assert (Hin : In c cl) by (now apply nth_error_In in Hc). destruct (comp_facts c Hin) as (A & _).
    assert (P2 : 0 <= blocks_high f2 c).
    { unfold blocks_high, comp_height. pose proof vmax_pos as V. change (vmax f2) with (vmax f). change (fr_height f2) with h2.
      pose proof (cdiv_spec (h2 * co_v c) (vmax f) V). pose proof (cdiv_spec (cdiv (h2 * co_v c) (vmax f)) 8 ltac:(lia)). nia. }
    unfold single_mcus. rewrite (high1 c Hin), (high c Hin). change (blocks_wide f1 c) with (blocks_wide f c). change (blocks_wide f2 c) with (blocks_wide f c).
    rewrite upto_add by nia. rewrite flat_map_app. f_equal. rewrite flat_map_map, map_flat_map. apply flat_map_ext. intros y. rewrite map_map.
    apply map_ext. intros x. cbn [map shift]. unfold v_of. rewrite Hc. f_equal. f_equal. f_equal. lia.
  Qed.
  Lemma inter_cut cs : wf_cs cs -> interleaved_mcus f cs = interleaved_mcus f1 cs ++ map (map shift) (interleaved_mcus f2 cs).
  Proof.
    intros Hcs. assert (P2 : 0 <= mcus_high f2).
    { unfold mcus_high. pose proof vmax_pos as V. change (vmax f2) with (vmax f). change (fr_height f2) with h2.
      pose proof (cdiv_spec h2 (8 * vmax f) ltac:(lia)). nia. }
    unfold interleaved_mcus. rewrite mhigh1, mhigh. change (mcus_wide f1) with (mcus_wide f). change (mcus_wide f2) with (mcus_wide f).
    rewrite upto_add by lia. rewrite flat_map_app. f_equal. rewrite flat_map_map, map_flat_map. apply flat_map_ext. intros y. rewrite map_map.
    apply map_ext. intros x. rewrite map_flat_map.
    induction cs as [|[ci c] cs IH]; [reflexivity|]. cbn [flat_map]. f_equal; [|apply IH; intros ci' c' Hi; apply Hcs; now right].
    rewrite map_flat_map. apply flat_map_ext. intros v. rewrite map_map. apply map_ext. intros h. cbn [shift]. unfold v_of. rewrite (Hcs ci c (or_introl eq_refl)). f_equal. f_equal. ring.
  Qed.
  Lemma mcus_cut si : mcus_of f si = mcus_of f1 si ++ map (map shift) (mcus_of f2 si).
  Proof.
    unfold mcus_of. change (fr_comps f) with cl. change (fr_comps f1) with cl. change (fr_comps f2) with cl.
    assert (W : wf_cs (flat_map (fun ci => match nth_error cl ci with Some c => [(ci, c)] | None => [] end) (si_comps si))).
    { intros ci c H. apply in_flat_map in H as (i & _ & H). destruct (nth_error cl i) eqn:E; [|destruct H]. destruct H as [H|[]]. congruence. }
    set (cs := flat_map _ _) in *. clearbody cs. unfold scan_mcus. destruct cs as [|[ci c] [|d cs]]; [now apply inter_cut|apply single_cut; apply W; now left|now apply inter_cut].
  Qed.

  Variables cf cf1 cf2 : coefficients.
  Variable E1 : forall ci c y x i, nth_error cl ci = Some c -> 0 <= y < k * co_v c -> 0 <= x -> 0 <= i < 64 -> cf ci y x i = cf1 ci y x i.
  Variable E2 : forall ci c y x i, nth_error cl ci = Some c -> 0 <= y -> 0 <= x -> 0 <= i < 64 -> cf ci (y + k * co_v c) x i = cf2 ci y x i.

  (** The units of a frame. *)
  Lemma units_in fr si ci y x : fr_comps fr = cl -> In (ci, y, x) (concat (mcus_of fr si)) ->
    exists c, nth_error cl ci = Some c /\ 0 <= y /\ 0 <= x /\ (y < blocks_high fr c \/ y < mcus_high fr * co_v c).
  Proof.
    intros Hf. unfold mcus_of. rewrite Hf.
    assert (W : wf_cs (flat_map (fun ci => match nth_error cl ci with Some c => [(ci, c)] | None => [] end) (si_comps si))).
    { intros ci' c H. apply in_flat_map in H as (i & _ & H). destruct (nth_error cl i) eqn:E; [|destruct H]. destruct H as [H|[]]. congruence. }
    set (cs := flat_map _ _) in *. clearbody cs.
    assert (U : forall n i, In i (upto n) -> 0 <= i < n) by (intros n i H; unfold upto in H; apply in_map_iff in H as (j & <- & Hj); apply in_seq in Hj; lia).
    assert (I : In (ci, y, x) (concat (interleaved_mcus fr cs)) -> exists c, nth_error cl ci = Some c /\ 0 <= y /\ 0 <= x /\ (y < blocks_high fr c \/ y < mcus_high fr * co_v c)).
    { intros H. apply in_concat in H as (m & Hm & H). unfold interleaved_mcus in Hm. apply in_flat_map in Hm as (my & Hmy & Hm). apply in_map_iff in Hm as (mx & <- & Hmx).
      apply in_flat_map in H as ([ci' c] & Hc & H). apply in_flat_map in H as (v & Hv & H). apply in_map_iff in H as (h & Hh & H). injection Hh as <- <- <-.
      apply U in Hmy, Hmx, Hv, H. exists c. split; [now apply W|]. nia. }
    unfold scan_mcus. destruct cs as [|[ci' c] [|d cs]]; [exact I| |exact I].
    intros H. apply in_concat in H as (m & Hm & H). unfold single_mcus in Hm. apply in_flat_map in Hm as (y' & Hy & Hm). apply in_map_iff in Hm as (x' & <- & Hx). destruct H as [H|[]].
    injection H as <- <- <-. apply U in Hy, Hx. exists c. split; [apply W; now left|]. lia.
  Qed.

  Variable Hr : 0 < s_restart s.
  Lemma scan_cut si : 0 <= si_ss si -> si_se si < 64 -> Z.of_nat (length (mcus_of f1 si)) mod s_restart s = 0 ->
    scan_data t f (s_restart s) cf si = scan_data t f1 (s_restart s) cf1 si ++ scan_data t f2 (s_restart s) cf2 si.
  Proof.
    intros Hss Hse HL. unfold scan_data. rewrite mcus_cut, intervals_app by assumption. rewrite map_app. f_equal.
    - apply map_ext_in. intros g Hg. f_equal. change (comp_table f) with (comp_table f1). rewrite <- (map_id (concat g)) at 1.
      apply (units_ext _ _ _ _ cf cf1 (fun u => u)); [assumption|assumption|]. intros ci y x Hu. exists y. split; [reflexivity|]. intros i Hi.
      assert (Hu' : In (ci, y, x) (concat (mcus_of f1 si))).
      { apply in_concat in Hu as (m & Hm & Hu). apply in_concat. exists m. split; [|exact Hu]. exact (intervals_incl _ _ _ Hg _ Hm). }
      destruct (units_in f1 si ci y x eq_refl Hu') as (c & Hc & Py & Px & Hy). apply (E1 ci c); try assumption. split; [exact Py|].
      rewrite mhigh1, (high1 c (nth_error_In _ _ Hc)) in Hy. lia.
    - rewrite intervals_map, map_map. apply map_ext_in. intros g Hg. f_equal. change (comp_table f) with (comp_table f2). rewrite <- concat_map.
      apply units_ext; [assumption|assumption|]. intros ci y x Hu. exists (y + k * v_of ci). split; [reflexivity|]. intros i Hi.
      assert (Hu' : In (ci, y, x) (concat (mcus_of f2 si))).
      { apply in_concat in Hu as (m & Hm & Hu). apply in_concat. exists m. split; [|exact Hu]. exact (intervals_incl _ _ _ Hg _ Hm). }
      destruct (units_in f2 si ci y x eq_refl Hu') as (c & Hc & Py & Px & Hy). unfold v_of. rewrite Hc. now apply (E2 ci c).
  Qed.
End Strips.

Section Expected.
  Variables (F : list Z -> list Z) (T : transform).
  Variable HF : transform_is F T.
  Variables (s : settings) (color : jcolor) (w h1 h2 k : Z) (pl1 pl2 pl : planes).
  Variable Hw : 1 <= w.
  Variable Hk : 0 <= k.
  Variable Hh2 : 1 <= h2.
  Let f := frame_for s color w (h1 + h2).
  Variable Eh : h1 = k * (8 * vmax f).
  Variable Hc : cut_planes color w h1 h2 pl1 pl2 pl.

  Lemma upper_expected ci c y x i : nth_error (comps_of (s_sampling s) color) ci = Some c -> 0 <= y < k * co_v c -> 0 <= x -> 0 <= i < 64 ->
    expected T s color pl w (h1 + h2) ci c y x i = expected T s color pl1 w h1 ci c y x i.
  Proof.
    intros N Hy Hx Hi. pose proof (comps_count _ _ _ _ N) as Hn. destruct (steps_exact s color w (h1 + h2) c (nth_error_In _ _ N)) as (Ph & Pv & Px & Py & Exx & Eyy). fold f in Px, Py, Exx, Eyy.
    unfold expected. change (hmax (frame_for s color w h1)) with (hmax f). change (vmax (frame_for s color w h1)) with (vmax f). fold f.
    change (hmax f / co_h c) with (step_x f c). change (vmax f / co_v c) with (step_y f c).
    pose proof (zigzag_pos_range i Hi) as Hz. destruct (zigzag_pos i) as [v u]. f_equal.
    apply (transform_ext F T _ _ v u HF); [apply Hz|apply Hz|]. intros y' x' Hy' Hx'. unfold block_sample. f_equal.
    set (sx := step_x f c) in *. set (sy := step_y f c) in *. clearbody sx sy. rewrite Eyy in Eh. set (r := (8 * y + Z.of_nat y') * sy).
    assert (Hr : 0 <= r < h1).
    { assert (8 * y + Z.of_nat y' <= 8 * (k * co_v c) - 1) by lia. unfold r. rewrite Eh. split; [apply Z.mul_nonneg_nonneg; lia|].
      apply Z.le_lt_trans with ((8 * (k * co_v c) - 1) * sy); [apply Z.mul_le_mono_nonneg_r; lia|]. lia. }
    clearbody r. rewrite (Z.min_r (h1 + h2 - 1) r), (Z.min_r (h1 - 1) r) by lia.
    apply Hc; [exact Hn| |exact Hr]. assert (0 <= (8 * x + Z.of_nat x') * sx) by (apply Z.mul_nonneg_nonneg; lia). lia.
  Qed.
  Lemma lower_expected ci c y x i : nth_error (comps_of (s_sampling s) color) ci = Some c -> 0 <= y -> 0 <= x -> 0 <= i < 64 ->
    expected T s color pl w (h1 + h2) ci c (y + k * co_v c) x i = expected T s color pl2 w h2 ci c y x i.
  Proof.
    intros N Hy Hx Hi. pose proof (comps_count _ _ _ _ N) as Hn. destruct (steps_exact s color w (h1 + h2) c (nth_error_In _ _ N)) as (Ph & Pv & Px & Py & Exx & Eyy). fold f in Px, Py, Exx, Eyy.
    unfold expected. change (hmax (frame_for s color w h2)) with (hmax f). change (vmax (frame_for s color w h2)) with (vmax f). fold f.
    change (hmax f / co_h c) with (step_x f c). change (vmax f / co_v c) with (step_y f c).
    pose proof (zigzag_pos_range i Hi) as Hz. destruct (zigzag_pos i) as [v u]. f_equal.
    apply (transform_ext F T _ _ v u HF); [apply Hz|apply Hz|]. intros y' x' Hy' Hx'. unfold block_sample. f_equal.
    set (sx := step_x f c) in *. set (sy := step_y f c) in *. clearbody sx sy. rewrite Eyy in Eh. set (r := (8 * y + Z.of_nat y') * sy).
    assert (Er : (8 * (y + k * co_v c) + Z.of_nat y') * sy = h1 + r) by (unfold r; rewrite Eh; ring). rewrite Er.
    assert (Hr : 0 <= r) by (unfold r; apply Z.mul_nonneg_nonneg; lia). clearbody r.
    replace (Z.min (h1 + h2 - 1) (h1 + r)) with (h1 + Z.min (h2 - 1) r) by lia.
    apply Hc; [exact Hn| |lia]. assert (0 <= (8 * x + Z.of_nat x') * sx) by (apply Z.mul_nonneg_nonneg; lia). lia.
  Qed.
End Expected.

Lemma stacked_app h1 h2 a1 a2 a b1 b2 b : stacked h1 h2 a1 a2 a -> stacked h1 h2 b1 b2 b -> stacked h1 h2 (a1 ++ b1) (a2 ++ b2) (a ++ b).
Proof. intros Ha Hb. induction Ha as [|p1 p2 p ps1 ps2 ps Hp Hps IH]; [exact Hb|]. cbn [app]. now constructor. Qed.
Definition plain (p : part) : Prop := match p with Segment m _ => m <> 192 /\ m <> 194 | Scan _ _ => False end.
Lemma stacked_same h1 h2 l : Forall plain l -> stacked h1 h2 l l l.
Proof. induction 1 as [|p l Hp Hl IH]; [constructor|]. constructor; [|exact IH]. destruct p; [destruct Hp; now constructor|destruct Hp]. Qed.

Lemma apps_nr s color nr d : settings_wf s -> In (nr, d) (apps_for s color) -> 0 <= nr.
Proof.
  intros Hs [H|H]; [injection H as <- <-; lia|]. apply in_app_iff in H as [H|H].
  - destruct color; cbn [In] in H; repeat (destruct H as [H|H]; [injection H as <- <-; lia|]); destruct H.
  - pose proof (sw_segs _ Hs) as S. rewrite Forall_forall in S. specialize (S _ H). unfold seg_ok in S. cbn in S. lia.
Qed.
Lemma strip_parts t s color w h1 h2 k (cf cf1 cf2 : coefficients) : settings_wf s -> 0 <= w -> 0 <= h1 -> 0 <= k -> h1 = k * (8 * vmax (frame_for s color w (h1 + h2))) -> 1 <= h2 -> can_cut s color w h1 ->
  (forall ci c y x i, nth_error (comps_of (s_sampling s) color) ci = Some c -> 0 <= y < k * co_v c -> 0 <= x -> 0 <= i < 64 -> cf ci y x i = cf1 ci y x i) ->
  (forall ci c y x i, nth_error (comps_of (s_sampling s) color) ci = Some c -> 0 <= y -> 0 <= x -> 0 <= i < 64 -> cf ci (y + k * co_v c) x i = cf2 ci y x i) ->
  stacked h1 h2 (file_parts t s (frame_for s color w h1) color cf1) (file_parts t s (frame_for s color w h2) color cf2) (file_parts t s (frame_for s color w (h1 + h2)) color cf).
Proof.
  intros Hs Hw Hh1 Hk Eh Hh2 (_ & Hr & Hcut) E1 E2. unfold file_parts.
  apply stacked_app.
  { apply stacked_same. apply Forall_forall. intros p Hp. apply in_map_iff in Hp as ([nr d] & <- & Hi). pose proof (apps_nr s color nr d Hs Hi). cbn [plain]. lia. }
  cbn [app]. constructor.
  { unfold sof. cbn [frame_for fr_progressive fr_width fr_height fr_comps]. apply stacked_frame. destruct (match s_scans s with Some _ => true | None => false end); auto. }
  do 4 (constructor; [constructor; discriminate|]).
  apply stacked_app; [|apply stacked_app].
  - cbn [frame_for fr_comps]. apply stacked_same. destruct (3 <=? _)%nat; [|constructor]. repeat (constructor; [split; discriminate|]). constructor.
  - apply stacked_same. unfold dri. destruct (s_restart s =? 0); [constructor|]. repeat (constructor; [split; discriminate|]). constructor.
  - assert (G : forall l, incl l (scan_script s color) -> stacked h1 h2
        (map (fun si => Scan (scan_header (frame_for s color w h1) si) (scan_data t (frame_for s color w h1) (s_restart s) cf1 si)) l)
        (map (fun si => Scan (scan_header (frame_for s color w h2) si) (scan_data t (frame_for s color w h2) (s_restart s) cf2 si)) l)
        (map (fun si => Scan (scan_header (frame_for s color w (h1 + h2)) si) (scan_data t (frame_for s color w (h1 + h2)) (s_restart s) cf si)) l)).
    { induction l as [|si l IH]; intros Hl; [constructor|]. cbn [map]. constructor; [|apply IH; intros a Ha; apply Hl; now right].
      assert (Hin : In si (scan_script s color)) by (apply Hl; now left). pose proof (script_band s color si Hs Hin) as B.
      rewrite (scan_cut t s color w h1 h2 k Hk Eh Hh2 cf cf1 cf2 E1 E2 Hr si); [|lia|lia|].
      - apply (stacked_scan h1 h2 (scan_header (frame_for s color w h1) si)).
      - rewrite mcus_length by assumption. now apply Hcut. }
    apply G. apply incl_refl.
Qed.

(** The files of three successful calls. *)
Lemma strip_core P1 P2 P op F T s im1 im2 im pl1 pl2 pl : settings_wf s -> s_optimize s = false -> op_ok op F -> transform_is F T ->
  plat_ok P1 -> plat_ok P2 -> plat_ok P -> image_ok im1 pl1 -> image_ok im2 pl2 -> image_ok im pl ->
  im_width im1 * im_height im1 < 2 ^ (ubits P1 - 1) -> im_width im2 * im_height im2 < 2 ^ (ubits P2 - 1) -> im_width im * im_height im < 2 ^ (ubits P - 1) ->
  im_color im1 = im_color im -> im_color im2 = im_color im -> im_width im1 = im_width im -> im_width im2 = im_width im -> im_height im = im_height im1 + im_height im2 ->
  can_cut s (im_color im) (im_width im) (im_height im1) -> cut_planes (im_color im) (im_width im) (im_height im1) (im_height im2) pl1 pl2 pl ->
  runs_stack (Ok tt) (im_height im1) (im_height im2) (exec (encode_image_internal P1 op (enc_of s) im1)) (exec (encode_image_internal P2 op (enc_of s) im2)) (exec (encode_image_internal P op (enc_of s) im)).
Proof.
  intros Hs O Hop HF HP1 HP2 HP I1 I2 I Hf1 Hf2 Hf Ec1 Ec2 Ew1 Ew2 Eh Hcut Hpl.
  pose proof (std_bytes_with P1 HP1 s Hs O op F T im1 pl1 Hop HF I1 Hf1) as B1. pose proof (std_bytes_with P2 HP2 s Hs O op F T im2 pl2 Hop HF I2 Hf2) as B2.
  pose proof (std_bytes_with P HP s Hs O op F T im pl Hop HF I Hf) as B. unfold emits in B1, B2, B.
  eexists. eexists. eexists. split; [exact B1|]. split; [exact B2|]. split; [exact B|].
  assert (Hw : 1 <= im_width im) by apply I. assert (Hh1 : 1 <= im_height im1) by apply I1. assert (Hh2 : 1 <= im_height im2) by apply I2.
  rewrite Ec1, Ec2, Ew1, Ew2, Eh.
  assert (Ecf1 : forall ci c y x i, nth_error (comps_of (s_sampling s) (im_color im)) ci = Some c -> spec_cf s T im1 pl1 ci y x i = expected T s (im_color im) pl1 (im_width im) (im_height im1) ci c y x i)
    by (intros ci c y x i N; unfold spec_cf; rewrite Ec1, Ew1; cbn [frame_for fr_comps]; rewrite N; reflexivity).
  assert (Ecf2 : forall ci c y x i, nth_error (comps_of (s_sampling s) (im_color im)) ci = Some c -> spec_cf s T im2 pl2 ci y x i = expected T s (im_color im) pl2 (im_width im) (im_height im2) ci c y x i)
    by (intros ci c y x i N; unfold spec_cf; rewrite Ec2, Ew2; cbn [frame_for fr_comps]; rewrite N; reflexivity).
  assert (Ecf : forall ci c y x i, nth_error (comps_of (s_sampling s) (im_color im)) ci = Some c -> spec_cf s T im pl ci y x i = expected T s (im_color im) pl (im_width im) (im_height im1 + im_height im2) ci c y x i)
    by (intros ci c y x i N; unfold spec_cf; rewrite Eh; cbn [frame_for fr_comps]; rewrite N; reflexivity).
  set (color := im_color im) in *. set (w := im_width im) in *. set (h1 := im_height im1) in *. set (h2 := im_height im2) in *. clearbody color w h1 h2.
  set (vm := vmax (frame_for s color w (h1 + h2))).
  assert (HV : h1 mod (8 * vm) = 0) by apply Hcut. assert (PV : 0 < vm) by apply vmax_positive.
  assert (Ek : h1 = h1 / (8 * vm) * (8 * vm)) by (pose proof (Z.div_mod h1 (8 * vm) ltac:(lia)); lia).
  assert (Hk : 0 <= h1 / (8 * vm)) by (apply Z.div_pos; lia).
  apply (strip_parts _ s color w h1 h2 (h1 / (8 * vm))); try assumption; try lia.
  - intros ci c y x i N Hy Hx Hi. rewrite (Ecf ci c), (Ecf1 ci c) by exact N. now apply (upper_expected F T HF s color w h1 h2 (h1 / (8 * vm)) pl1 pl2 pl).
  - intros ci c y x i N Hy Hx Hi. rewrite (Ecf ci c), (Ecf2 ci c) by exact N. now apply (lower_expected F T HF s color w h1 h2 (h1 / (8 * vm)) pl1 pl2 pl).
Qed.

Lemma cut_data c data1 data2 w h1 h2 : 1 <= w -> 0 <= h1 -> Z.of_nat (length data1) = w * h1 * spec_bpp c ->
  cut_planes (spec_color c) w h1 h2 (spec_plane c data1 w) (spec_plane c data2 w) (spec_plane c (data1 ++ data2) w).
Proof.
  intros Hw Hh1 L ci y x Hn Hx. assert (B : 0 < spec_bpp c) by (destruct c; reflexivity). split; intros Hy; apply plane_ext; try exact Hn; intros k Hk; unfold pixel_byte.
  - apply app_nth1. assert (y * w + x < h1 * w) by nia. assert ((y * w + x) * spec_bpp c + k < w * h1 * spec_bpp c) by nia. nia.
  - rewrite app_nth2.
    + f_equal. assert (0 <= y * w + x) by nia. assert (0 <= (y * w + x) * spec_bpp c) by nia. replace (((h1 + y) * w + x) * spec_bpp c + k) with (w * h1 * spec_bpp c + ((y * w + x) * spec_bpp c + k)) by ring. lia.
    + assert (0 <= (y * w + x) * spec_bpp c) by nia. replace (((h1 + y) * w + x) * spec_bpp c + k) with (w * h1 * spec_bpp c + ((y * w + x) * spec_bpp c + k)) by ring. lia.
Qed.

(** ** C69 *)
Theorem C69_strips : forall P1 P2 P quality calls data1 data2 w h1 h2 c, let s := settings_of quality calls in
  Forall call_wf calls -> s_optimize s = false ->
  valid_input P1 data1 w h1 c -> valid_input P2 data2 w h2 c -> valid_input P (data1 ++ data2) w (h1 + h2) c ->
  Z.of_nat (length data1) = w * h1 * spec_bpp c -> can_cut s (spec_color c) w h1 ->
  runs_stack (Ok tt) h1 h2 (exec (run_encode P1 quality calls data1 w h1 c)) (exec (run_encode P2 quality calls data2 w h2 c))
    (exec (run_encode P quality calls (data1 ++ data2) w (h1 + h2) c)).
Proof.
  intros P1 P2 P quality calls data1 data2 w h1 h2 c s C O V1 V2 V L Hcut. rewrite !run_encode_eq by assumption. fold s.
  pose proof (strip_core P1 P2 P default_operations fdct_pure int_dct s _ _ _ _ _ _ (settings_of_wf quality calls C) O default_op_ok fdct_is_int_dct
    (vi_platform _ _ _ _ _ V1) (vi_platform _ _ _ _ _ V2) (vi_platform _ _ _ _ _ V) (valid_image _ _ _ _ _ V1) (valid_image _ _ _ _ _ V2) (valid_image _ _ _ _ _ V)) as G.
  rewrite !image_of_width, !image_of_height, !image_of_color in G.
  apply G; try reflexivity; try exact Hcut; [apply (valid_fits _ _ _ _ _ V1)|apply (valid_fits _ _ _ _ _ V2)|apply (valid_fits _ _ _ _ _ V)|].
  apply cut_data; [apply V|pose proof (vi_height _ _ _ _ _ V1); lia|exact L].
Qed.
Theorem C69_strips_simd : forall P1 P2 P quality calls data1 data2 w h1 h2 c, let s := settings_of quality calls in
  Forall call_wf calls -> s_optimize s = false ->
  valid_input P1 data1 w h1 c -> valid_input P2 data2 w h2 c -> valid_input P (data1 ++ data2) w (h1 + h2) c ->
  Z.of_nat (length data1) = w * h1 * spec_bpp c -> can_cut s (spec_color c) w h1 ->
  runs_stack (Ok tt) h1 h2 (exec (run_encode_avx2 P1 quality calls data1 w h1 c)) (exec (run_encode_avx2 P2 quality calls data2 w h2 c))
    (exec (run_encode_avx2 P quality calls (data1 ++ data2) w (h1 + h2) c)).
Proof.
  intros P1 P2 P quality calls data1 data2 w h1 h2 c s C O V1 V2 V L Hcut. rewrite !run_avx2_eq by assumption. fold s.
  pose proof (strip_core P1 P2 P avx2_operations avx2_pure avx2_dct s _ _ _ _ _ _ (settings_of_wf quality calls C) O avx2_op_ok avx2_is_dct
    (vi_platform _ _ _ _ _ V1) (vi_platform _ _ _ _ _ V2) (vi_platform _ _ _ _ _ V) (valid_image _ _ _ _ _ V1) (valid_image _ _ _ _ _ V2) (valid_image _ _ _ _ _ V)) as G.
  rewrite !image_of_width, !image_of_height, !image_of_color in G.
  apply G; try reflexivity; try exact Hcut; [apply (valid_fits _ _ _ _ _ V1)|apply (valid_fits _ _ _ _ _ V2)|apply (valid_fits _ _ _ _ _ V)|].
  apply cut_data; [apply V|pose proof (vi_height _ _ _ _ _ V1); lia|exact L].
Qed.
Theorem C69_strips_image : forall P1 P2 P quality calls im1 im2 im pl1 pl2 pl, let s := settings_of quality calls in
  let color := im_color im in let w := im_width im in let h1 := im_height im1 in let h2 := im_height im2 in
  Forall call_wf calls -> s_optimize s = false ->
  valid_buffer P1 im1 pl1 -> valid_buffer P2 im2 pl2 -> valid_buffer P im pl ->
  im_color im1 = color -> im_color im2 = color -> im_width im1 = w -> im_width im2 = w -> im_height im = h1 + h2 ->
  can_cut s color w h1 -> cut_planes color w h1 h2 pl1 pl2 pl ->
  runs_stack (Ok tt) h1 h2 (exec (run_encode_image P1 quality calls im1)) (exec (run_encode_image P2 quality calls im2)) (exec (run_encode_image P quality calls im)) /\
  runs_stack (Ok tt) h1 h2 (exec (run_encode_image_avx2 P1 quality calls im1)) (exec (run_encode_image_avx2 P2 quality calls im2)) (exec (run_encode_image_avx2 P quality calls im)).
Proof.
  intros P1 P2 P quality calls im1 im2 im pl1 pl2 pl s color w h1 h2 C O V1 V2 V Ec1 Ec2 Ew1 Ew2 Eh Hcut Hpl. split.
  - rewrite !run_encode_image_eq by assumption.
    exact (strip_core P1 P2 P default_operations fdct_pure int_dct s im1 im2 im pl1 pl2 pl (settings_of_wf quality calls C) O default_op_ok fdct_is_int_dct
      (vb_platform _ _ _ V1) (vb_platform _ _ _ V2) (vb_platform _ _ _ V) (vb_image _ _ _ V1) (vb_image _ _ _ V2) (vb_image _ _ _ V) (vb_fits _ _ _ V1) (vb_fits _ _ _ V2) (vb_fits _ _ _ V)
      Ec1 Ec2 Ew1 Ew2 Eh Hcut Hpl).
  - rewrite !run_image_avx2_eq by assumption.
    exact (strip_core P1 P2 P avx2_operations avx2_pure avx2_dct s im1 im2 im pl1 pl2 pl (settings_of_wf quality calls C) O avx2_op_ok avx2_is_dct
      (vb_platform _ _ _ V1) (vb_platform _ _ _ V2) (vb_platform _ _ _ V) (vb_image _ _ _ V1) (vb_image _ _ _ V2) (vb_image _ _ _ V) (vb_fits _ _ _ V1) (vb_fits _ _ _ V2) (vb_fits _ _ _ V)
      Ec1 Ec2 Ew1 Ew2 Eh Hcut Hpl).
Qed.

(** A case: 9 x 17 pixels with 2 x 2 subsampling, cut after 16 rows; a restart marker after every MCU. *)
Definition upper_bytes : list Z := firstn 576 rgba_bytes.
Definition lower_bytes : list Z := skipn 576 rgba_bytes.
Example C69_case : runs_stack (Ok tt) 16 1 (exec (run_encode debug64 60 [CSampling F_2_2; CRestart 1] upper_bytes 9 16 Rgba))
  (exec (run_encode release32 60 [CSampling F_2_2; CRestart 1] lower_bytes 9 1 Rgba)) (exec (run_encode debug64 60 [CSampling F_2_2; CRestart 1] rgba_bytes 9 17 Rgba)).
Proof.
  replace rgba_bytes with (upper_bytes ++ lower_bytes) by (apply firstn_skipn). change 17 with (16 + 1). apply C69_strips.
  - repeat (constructor; [cbn; unfold is_u16; auto; lia|]). constructor.
  - reflexivity.
  - constructor; try (vm_compute; split; discriminate); [now right| |vm_compute; discriminate]. apply bytes_by_check. vm_compute. reflexivity.
  - constructor; try (vm_compute; split; discriminate); [now left| |vm_compute; discriminate]. apply bytes_by_check. vm_compute. reflexivity.
  - unfold upper_bytes, lower_bytes. rewrite firstn_skipn. constructor; try (vm_compute; split; discriminate); [now right| |vm_compute; discriminate]. apply bytes_by_check. vm_compute. reflexivity.
  - vm_compute. reflexivity.
  - split; [vm_compute; reflexivity|]. split; [vm_compute; reflexivity|]. intros si [<-|[]]. vm_compute. reflexivity.
Qed.
