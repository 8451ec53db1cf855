(** Coefficient lookup in the logs of the three modes, and the interleaved scan. *)
From Verif Require Export PFile PInter.
From Verif Require Import T81.
From Coq Require Import ZifyBool ZifyNat.
Local Ltac Zify.zify_post_hook ::= Z.div_mod_to_equations.

Definition hits (i : nat) (y x k : Z) (e : entry) : bool :=
  same_pos (en_pos e) (i, y, x) && (en_ss e <=? k) && (k <? en_ss e + Z.of_nat (length (en_vals e))).

Definition coefl (log : list entry) (i : nat) (y x k : Z) : option Z :=
  match filter (hits i y x k) log with
  | [e] => nth_error (en_vals e) (Z.to_nat (k - en_ss e))
  | _ => None
  end.

Lemma coef_coefl j i y x k : coef j i y x k = coefl (j_log j) i y x k.
Proof. reflexivity. Qed.

Lemma same_pos_spec a b : same_pos a b = true <-> a = b.
Proof.
  destruct a as [[c1 y1] x1], b as [[c2 y2] x2]. cbn. split.
  - intros E. assert (c1 = c2 /\ y1 = y2 /\ x1 = x2) as (-> & -> & ->) by lia. reflexivity.
  - intros [= -> -> ->]. lia.
Qed.

Lemma filter_flat_map' {X E} (f : E -> bool) (ent : X -> list E) (g : X -> bool) l x :
  filter g l = [x] -> (forall y, In y l -> g y = false -> filter f (ent y) = []) ->
  filter f (flat_map ent l) = filter f (ent x).
Proof.
  revert x. induction l as [|y l IH]; intros x Hg Hy; [discriminate|].
  cbn [flat_map filter] in *. rewrite filter_app. destruct (g y) eqn:E1.
  - inversion Hg as [[E2 E3]]. subst y.
    replace (filter f (flat_map ent l)) with (@nil E); [now rewrite app_nil_r|].
    symmetry. assert (Hn : forall z, In z l -> g z = false).
    { intros z Hz. destruct (g z) eqn:Ez; [|reflexivity].
      assert (Hin : In z (filter g l)) by (apply filter_In; auto). rewrite E3 in Hin. destruct Hin. }
    apply filter_flat_map_nil. intros z Hz. apply Hy; [now right|now apply Hn].
  - rewrite (Hy y (or_introl eq_refl) E1). cbn [app]. apply (IH x); auto. intros z Hz. apply Hy. now right.
Qed.

Lemma filter_hits_nil i y x k l : (forall e, In e l -> en_pos e <> (i, y, x)) -> filter (hits i y x k) l = [].
Proof.
  induction l as [|e l IH]; intros Hp; [reflexivity|]. cbn [filter].
  replace (hits i y x k e) with false; [apply IH; intros; apply Hp; now right|].
  symmetry. unfold hits. destruct (same_pos (en_pos e) (i, y, x)) eqn:E; [|reflexivity].
  apply same_pos_spec in E. exfalso. apply (Hp e); [now left|exact E].
Qed.

Lemma nth_error_firstn_lt {A} (l : list A) : forall n i, (i < n)%nat -> nth_error (firstn n l) i = nth_error l i.
Proof. induction l as [|a l IH]; intros [|n] [|i] Hi; try reflexivity; try lia. cbn. apply IH. lia. Qed.
Lemma nth_error_skipn {A} (l : list A) : forall n i, nth_error (skipn n l) i = nth_error l (n + i).
Proof. induction l as [|a l IH]; intros [|n] i; try reflexivity; [now destruct i|]. cbn. apply IH. Qed.

Section Lookup.
  Variable im : image.
  Variable pl : planes.
  Variable F : list Z -> list Z.
  Let W := im_width im.
  Let H := im_height im.
  Variable cs : list component.
  Variables mh mv : Z.
  Variables q0 q1 : qtable.
  Let blk := cblock im pl F mh mv q0 q1.
  Let uns := units im pl F mh mv q0 q1.
  Variable Hblk : forall i c y x, nth_error cs i = Some c -> 0 <= y -> 0 <= x -> block_ok (blk i c y x).

  Definition keeps_pos (ent : unitb -> list entry) : Prop := forall u e, In e (ent u) -> en_pos e = fst u.

  Lemma units_lookup ent i c y x k : keeps_pos ent ->
    0 <= y < nrows H mv c -> 0 <= x < ncols W mh c ->
    filter (hits i y x k) (flat_map ent (uns i c)) = filter (hits i y x k) (ent ((i, y, x), blk i c y x)).
  Proof.
    intros Hk Hy Hx.
    assert (Hnd : NoDup (uns i c)).
    { unfold uns, units. apply FinFun.Injective_map_NoDup; [|apply grid_NoDup].
      intros [a b] [a' b'] E. now inversion E. }
    apply (filter_flat_map' _ _ (fun u => same_pos (fst u) (i, y, x))).
    - apply filter_unique; [exact Hnd| | |].
      + unfold uns, units. apply in_map_iff. exists (y, x). split; [reflexivity|].
        apply in_grid. split; [exact Hy|exact Hx].
      + now apply same_pos_spec.
      + intros u Hu E. apply same_pos_spec in E. unfold uns, units in Hu.
        apply in_map_iff in Hu as ([y' x'] & <- & _). cbn [fst] in E. inversion E; subst. reflexivity.
    - intros u Hu E. apply filter_hits_nil. intros e He Ep. rewrite (Hk u e He) in Ep.
      apply same_pos_spec in Ep. rewrite Ep in E. discriminate.
  Qed.

  Lemma comps_lookup ent i c y x k : keeps_pos ent -> nth_error cs i = Some c ->
    0 <= y < nrows H mv c -> 0 <= x < ncols W mh c ->
    filter (hits i y x k) (flat_map (fun '(i, c) => flat_map ent (uns (Z.to_nat i) c)) (enumerate cs))
    = filter (hits i y x k) (ent ((i, y, x), blk i c y x)).
  Proof.
    intros Hk Hi Hy Hx.
    rewrite (filter_flat_map' _ _ (fun ic => (Z.to_nat (fst ic) =? i)%nat) _ (Z.of_nat i, c)).
    - rewrite Nat2Z.id. now apply units_lookup.
    - now apply filter_enum.
    - intros [j d] _ E. cbn [fst] in E. apply filter_hits_nil. intros e He Ep.
      apply in_flat_map in He as (u & Hu & He). rewrite (Hk u e He) in Ep.
      unfold uns, units in Hu. apply in_map_iff in Hu as ([y' x'] & <- & _). cbn [fst] in Ep.
      inversion Ep. lia.
  Qed.

  Definition log_ok (log : list entry) : Prop := forall i c y x k, nth_error cs i = Some c ->
    0 <= y < nrows H mv c -> 0 <= x < ncols W mh c -> 0 <= k < 64 ->
    coefl log i y x k = Some (zn (blk i c y x) k).

  Lemma zn_some l k : 0 <= k < zlen l -> nth_error l (Z.to_nat k) = Some (zn l k).
  Proof. intros Hk. unfold zn. apply nth_error_nth'. unfold zlen in Hk. lia. Qed.

  Lemma seq_log_ok : log_ok (seq_log im pl F mh mv q0 q1 (enumerate cs)).
  Proof.
    intros i c y x k Hi Hy Hx Hk. unfold coefl, seq_log. fold uns.
    rewrite (comps_lookup seq_entry i c y x k); auto.
    2:{ intros u e [<-|[]]. reflexivity. }
    pose proof (Hblk i c y x Hi ltac:(lia) ltac:(lia)) as (Hl & _).
    cbn [seq_entry filter]. unfold hits. cbn [en_pos en_ss en_vals fst snd].
    replace (same_pos (i, y, x) (i, y, x)) with true by (symmetry; now apply same_pos_spec).
    rewrite Hl. replace (true && (0 <=? k) && (k <? 0 + Z.of_nat 64)) with true by lia.
    rewrite Z.sub_0_r. apply zn_some. unfold zlen. lia.
  Qed.

  Lemma prog_log_ok bs :
    Forall band_ok bs ->
    (forall k, 1 <= k < 64 -> exists b, filter (fun b => (fst b <=? k) && (k <? snd b)) bs = [b]) ->
    log_ok (dc_log im pl F mh mv q0 q1 (enumerate cs) ++ ac_logs im pl F cs mh mv q0 q1 bs).
  Proof.
    intros Hb Hpart i c y x k Hi Hy Hx Hk. unfold coefl. rewrite filter_app.
    pose proof (Hblk i c y x Hi ltac:(lia) ltac:(lia)) as (Hl & _).
    unfold dc_log at 1. fold uns. rewrite (comps_lookup dc_entry i c y x k); auto.
    2:{ intros u e [<-|[]]. reflexivity. }
    assert (Eac : forall b, filter (hits i y x k) (ac_log im pl F mh mv q0 q1 b (enumerate cs)) =
              filter (hits i y x k) (ac_entry (fst b) (snd b) ((i, y, x), blk i c y x))).
    { intros b. unfold ac_log. fold uns. rewrite (comps_lookup (ac_entry (fst b) (snd b)) i c y x k); auto.
      intros u e [<-|[]]. reflexivity. }
    assert (Hsl : forall s e, 1 <= s < e -> e <= 64 -> length (slice (blk i c y x) s e) = Z.to_nat (e - s)).
    { intros s e Hs He. unfold slice. rewrite firstn_length, skipn_length, Hl. lia. }
    assert (Ehit : forall b, band_ok b ->
      filter (hits i y x k) (ac_entry (fst b) (snd b) ((i, y, x), blk i c y x)) =
      if (fst b <=? k) && (k <? snd b) then ac_entry (fst b) (snd b) ((i, y, x), blk i c y x) else []).
    { intros b [Hb1 Hb2]. cbn [ac_entry filter]. unfold hits. cbn [en_pos en_ss en_vals fst snd].
      replace (same_pos (i, y, x) (i, y, x)) with true by (symmetry; now apply same_pos_spec).
      rewrite Hsl by lia. replace (fst b + Z.of_nat (Z.to_nat (snd b - fst b))) with (snd b) by lia.
      reflexivity. }
    unfold ac_logs.
    destruct (Z.eq_dec k 0) as [->|Hk0].
    - rewrite (filter_flat_map_nil (hits i y x 0)).
      2:{ intros b Hin. rewrite Eac, Ehit by (rewrite Forall_forall in Hb; now apply Hb).
          rewrite Forall_forall in Hb. destruct (Hb b Hin) as [Hb1 _].
          replace ((fst b <=? 0) && (0 <? snd b)) with false by lia. reflexivity. }
      cbn [dc_entry filter]. unfold hits. cbn [en_pos en_ss en_vals fst snd].
      replace (same_pos (i, y, x) (i, y, x)) with true by (symmetry; now apply same_pos_spec).
      reflexivity.
    - destruct (Hpart k ltac:(lia)) as (b & Eb).
      rewrite (filter_flat_map' _ _ _ _ _ Eb).
      2:{ intros b' Hin E. rewrite Eac, Ehit by (rewrite Forall_forall in Hb; now apply Hb).
          rewrite E. reflexivity. }
      assert (Hin : In b (filter (fun b => (fst b <=? k) && (k <? snd b)) bs)) by (rewrite Eb; now left).
      apply filter_In in Hin as [Hin E].
      assert (Hbb : band_ok b) by (rewrite Forall_forall in Hb; now apply Hb).
      rewrite Eac, Ehit, E by assumption.
      cbn [dc_entry filter]. unfold hits. cbn [en_pos en_ss en_vals fst snd].
      replace (same_pos (i, y, x) (i, y, x)) with true by (symmetry; now apply same_pos_spec).
      cbn [length]. replace (true && (0 <=? k) && (k <? 0 + Z.of_nat 1)) with false by lia.
      cbn [app ac_entry en_vals en_ss snd]. destruct Hbb as [Hb1 Hb2].
      unfold slice. rewrite nth_error_firstn_lt by lia. rewrite nth_error_skipn.
      replace (Z.to_nat (fst b) + Z.to_nat (k - fst b))%nat with (Z.to_nat k) by lia.
      apply zn_some. unfold zlen. lia.
  Qed.

  Variable Hcs : comps_ok cs mh mv.

  Lemma inter_log_ok : log_ok (flat_map (ment im pl F cs mh mv q0 q1) (grid (mrows im mv) (mcols im mh))).
  Proof.
    intros i c y x k Hi Hy Hx Hk. unfold coefl.
    pose proof (Hblk i c y x Hi ltac:(lia) ltac:(lia)) as (Hl & _).
    pose proof (cs_comp _ _ _ Hcs _ _ Hi) as Hc.
    pose proof (cs_mh _ _ _ Hcs) as Hmh. pose proof (cs_mv _ _ _ Hcs) as Hmv.
    assert (Hpos : forall i' c', nth_error cs i' = Some c' -> 1 <= c_h c' /\ 1 <= c_v c').
    { intros i' c' Hi'. pose proof (cs_comp _ _ _ Hcs _ _ Hi') as Hc'.
      destruct (ck_h _ _ _ _ _ Hc'), (ck_v _ _ _ _ _ Hc'); lia. }
    destruct (Hpos _ _ Hi) as [Hch Hcv].
    assert (Hgy : 0 <= y / c_v c < mrows im mv).
    { split; [apply Z.div_pos; lia|]. apply Z.div_lt_upper_bound; [lia|].
      unfold nrows, vstride in Hy. pose proof (blocks_fit H mv (c_v c) y Hmv (ck_v _ _ _ _ _ Hc) Hy) as Hf.
      unfold mrows. fold H.
      destruct (stride_cases mv (c_v c) Hmv (ck_v _ _ _ _ _ Hc)) as [[E1 E2]|[E1 E2]]; rewrite E2 in Hf.
      + rewrite E1. nia.
      + rewrite E1. lia. }
    assert (Hgx : 0 <= x / c_h c < mcols im mh).
    { split; [apply Z.div_pos; lia|]. apply Z.div_lt_upper_bound; [lia|].
      unfold ncols, hstride in Hx. pose proof (blocks_fit W mh (c_h c) x Hmh (ck_h _ _ _ _ _ Hc) Hx) as Hf.
      unfold mcols. fold W.
      destruct (stride_cases mh (c_h c) Hmh (ck_h _ _ _ _ _ Hc)) as [[E1 E2]|[E1 E2]]; rewrite E2 in Hf.
      + rewrite E1. nia.
      + rewrite E1. lia. }
    set (uy := y / c_v c) in *. set (ux := x / c_h c) in *.
    set (ry := y mod c_v c). set (rx := x mod c_h c).
    assert (Ey : y = uy * c_v c + ry) by (unfold uy, ry; pose proof (Z.div_mod y (c_v c)); lia).
    assert (Ex : x = ux * c_h c + rx) by (unfold ux, rx; pose proof (Z.div_mod x (c_h c)); lia).
    assert (Hry : 0 <= ry < c_v c) by (apply Z.mod_pos_bound; lia).
    assert (Hrx : 0 <= rx < c_h c) by (apply Z.mod_pos_bound; lia).
    clearbody uy ux ry rx.
    assert (Huniq : forall a b r s m, 0 <= r < m -> 0 <= s < m -> a * m + r = b * m + s -> a = b /\ r = s) by (clear; intros a b r s m Hr Hs E; apply (Z.div_mod_unique m); [now left|now left|lia]).
    assert (Hzu : forall m r, 0 <= r < m -> filter (fun v => v =? r) (zrange m) = [r]).
    { intros m r Hr. apply filter_unique; [apply zrange_NoDup|now apply in_zrange|lia|]. intros v _ Ev. lia. }
    rewrite (filter_flat_map' _ _ (fun u => (fst u =? uy) && (snd u =? ux)) _ (uy, ux)).
    2:{ apply filter_unique; [apply grid_NoDup|now apply in_grid|cbn [fst snd]; lia|].
        intros [a b] _ E. cbn [fst snd] in E. f_equal; lia. }
    2:{ intros [a b] _ E. cbn [fst snd] in E. apply filter_hits_nil. intros e He Ep.
        unfold ment in He. apply in_flat_map in He as ([i' c'] & Hic & He).
        apply in_flat_map in He as (v & Hv & He). apply in_flat_map in He as (h & Hh & He).
        destruct He as [<-|[]]. cbn [en_pos fst snd] in Ep. inversion Ep as [[E1 E2 E3]].
        apply in_enum in Hic as [_ Hic]. rewrite E1, Hi in Hic. inversion Hic; subst c'.
        apply in_zrange in Hv, Hh. rewrite Ey in E2. rewrite Ex in E3.
        destruct (Huniq _ _ _ _ _ Hv Hry E2) as [? _]. destruct (Huniq _ _ _ _ _ Hh Hrx E3) as [? _]. lia. }
    unfold ment. cbn [fst snd].
    rewrite (filter_flat_map' _ _ (fun ic => (Z.to_nat (fst ic) =? i)%nat) _ (Z.of_nat i, c)).
    2:{ now apply filter_enum. }
    2:{ intros [i' c'] Hic E. cbn [fst] in E. apply filter_hits_nil. intros e He Ep.
        apply in_flat_map in He as (v & Hv & He). apply in_flat_map in He as (h & Hh & He).
        destruct He as [<-|[]]. cbn [en_pos] in Ep. inversion Ep. lia. }
    rewrite (filter_flat_map' _ _ (fun v => v =? ry) _ ry); [|now apply Hzu|].
    2:{ intros v Hv E. apply filter_hits_nil. intros e He Ep. apply in_flat_map in He as (h & Hh & He).
        destruct He as [<-|[]]. cbn [en_pos] in Ep. inversion Ep as [[E1 E2 E3]]. lia. }
    rewrite (filter_flat_map' _ _ (fun h => h =? rx) _ rx); [|now apply Hzu|].
    2:{ intros h Hh E. apply filter_hits_nil. intros e He Ep.
        destruct He as [<-|[]]. cbn [en_pos] in Ep. inversion Ep as [[E1 E2 E3]]. lia. }
    rewrite Nat2Z.id, <- Ey, <- Ex. fold blk. cbn [filter]. unfold hits. cbn [en_pos en_ss en_vals].
    replace (same_pos (i, y, x) (i, y, x)) with true by (symmetry; now apply same_pos_spec).
    rewrite Hl. replace (true && (0 <=? k) && (k <? 0 + Z.of_nat 64)) with true by lia.
    cbn [en_vals en_ss]. rewrite Z.sub_0_r. apply zn_some. unfold zlen. lia.
  Qed.
End Lookup.
