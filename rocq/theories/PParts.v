(** Whatever the decoder of T81.v accepts has the byte structure of SFile.v. *)
From Coq Require Import ZArith List Bool Lia ZifyBool ZifyNat.
From Verif Require Import T81 SFile.
Import ListNotations.
Open Scope Z_scope.
Local Ltac Zify.zify_post_hook ::= Z.div_mod_to_equations.

Lemma take_app {A} n : forall (l a b : list A), take n l = Some (a, b) -> l = a ++ b /\ length a = n.
Proof.
  induction n as [|n IH]; intros l a b H; cbn [take] in H.
  - destruct l; inversion H; subst; split; reflexivity.
  - destruct l as [|x l]; [discriminate|]. destruct (take n l) as [[a' b']|] eqn:E; [|discriminate].
    inversion H; subst. destruct (IH _ _ _ E) as [-> <-]. split; reflexivity.
Qed.

Lemma F2_length {A B} (R : A -> B -> Prop) l1 l2 : Forall2 R l1 l2 -> length l1 = length l2.
Proof. induction 1; cbn; congruence. Qed.

Lemma F2_impl {A B} (R S : A -> B -> Prop) l1 l2 : (forall a b, R a b -> S a b) -> Forall2 R l1 l2 -> Forall2 S l1 l2.
Proof. intros H. induction 1; constructor; auto. Qed.

Definition byte_list (l : list Z) : Prop := Forall (fun b => 0 <= b < 256) l.

Lemma byte_list_app a b : byte_list (a ++ b) -> byte_list a /\ byte_list b.
Proof. intros H. now apply Forall_app in H. Qed.

Lemma segment_inv l p rest : byte_list l -> segment l = Some (p, rest) -> l = length_field p ++ p ++ rest.
Proof.
  intros Hb H. destruct l as [|a [|b l]]; try discriminate H. cbn [segment] in H.
  destruct (2 <=? 256 * a + b) eqn:E; [|discriminate]. apply take_app in H as [-> Hl].
  inversion Hb as [|? ? Ha Hb1]; subst. inversion Hb1 as [|? ? Hb2 _]; subst.
  unfold length_field. rewrite Hl. rewrite Z2Nat.id by lia.
  assert (E1 : (256 * a + b - 2 + 2) / 256 = a) by lia.
  assert (E2 : (256 * a + b - 2 + 2) mod 256 = b) by lia.
  rewrite E1, E2. reflexivity.
Qed.

Lemma entropy_bytes_inv : forall l d rest, entropy_bytes l = Some (d, rest) ->
  l = stuffed d ++ rest.
Proof.
  fix IH 1. intros [|b l'] d rest H; [discriminate|]. cbn [entropy_bytes] in H.
  destruct (b =? 255) eqn:E.
  - destruct l' as [|b' l'']; [discriminate|]. destruct (b' =? 0) eqn:E'.
    + destruct (entropy_bytes l'') as [[d' r']|] eqn:E2; [|discriminate]. inversion H; subst.
      apply IH in E2. rewrite E2. apply Z.eqb_eq in E, E'. subst b b'. reflexivity.
    + inversion H; subst. reflexivity.
  - destruct (entropy_bytes l') as [[d' r']|] eqn:E2; [|discriminate]. inversion H; subst.
    apply IH in E2. rewrite E2. cbn [stuffed flat_map]. rewrite E. reflexivity.
Qed.

Lemma decode_interval_inv sc n i bytes es rest : decode_interval sc n i bytes = Some (es, rest) ->
  exists d, bytes = stuffed d ++ rest /\ interval_bits sc n i d.
Proof.
  unfold decode_interval. intros H.
  destruct (entropy_bytes bytes) as [[d r]|] eqn:E; [|discriminate].
  destruct (decode_units sc (repeat 0 n, 0) (concat i) (bits_of_bytes d)) as [[[es' st] pad]|] eqn:E2; [|discriminate].
  destruct ((snd st =? 0) && (length pad <? 8)%nat && forallb (fun b => b) pad) eqn:E3; [|discriminate].
  inversion H; subst. apply andb_prop in E3 as [E3 E5]. apply andb_prop in E3 as [E3 E4].
  exists d. split; [now apply entropy_bytes_inv|].
  destruct st as [preds run]. cbn [snd] in E3. exists es, preds, pad. split; [|split; [lia|]].
  - rewrite E2. repeat f_equal. lia.
  - rewrite forallb_forall in E5. now apply Forall_forall.
Qed.

Lemma decode_intervals_inv sc n : forall ints m bytes es rest,
  decode_intervals sc n m ints bytes = Some (es, rest) ->
  exists ds, bytes = coded_data m ds ++ rest /\ Forall2 (interval_bits sc n) ints ds.
Proof.
  induction ints as [|i ints IH]; intros m bytes es rest H; [discriminate|].
  destruct ints as [|i2 ints].
  - cbn [decode_intervals] in H. destruct (decode_interval_inv _ _ _ _ _ _ H) as (d & E & Hd).
    exists [d]. split; [exact E|]. repeat constructor. exact Hd.
  - cbn [decode_intervals] in H.
    destruct (decode_interval sc n i bytes) as [[es1 r1]|] eqn:E1; [|discriminate].
    destruct r1 as [|b1 [|b2 r1]]; try discriminate.
    destruct ((b1 =? 255) && (b2 =? 208 + m mod 8)) eqn:E2; [|discriminate].
    set (tl := i2 :: ints) in *.
    change (match decode_intervals sc n (m + 1) tl r1 with
            | Some (es', rest0) => Some (es1 ++ es', rest0) | None => None end = Some (es, rest)) in H.
    destruct (decode_intervals sc n (m + 1) tl r1) as [[es2 r2]|] eqn:E3; [|discriminate].
    inversion H; subst. destruct (decode_interval_inv _ _ _ _ _ _ E1) as (d & -> & Hd).
    destruct (IH _ _ _ _ E3) as (ds & -> & Hds).
    exists (d :: ds). split; [|now constructor].
    apply andb_prop in E2 as [E2 E2']. assert (b1 = 255) as -> by lia. assert (b2 = 208 + m mod 8) as -> by lia.
    destruct ds as [|d2 ds]; [inversion Hds|]. cbn [coded_data]. rewrite <- !app_assoc. reflexivity.
Qed.

Lemma group_length {A} (k : nat) : (0 < k)%nat -> forall fuel (l : list A), (length l <= fuel)%nat ->
  Z.of_nat (length (group fuel k l)) = cdiv (Z.of_nat (length l)) (Z.of_nat k).
Proof.
  intros Hk. induction fuel as [|fuel IH]; intros l Hl.
  - destruct l; [|cbn in Hl; lia]. cbn [group length]. unfold cdiv. symmetry. apply Z.div_small. lia.
  - cbn [group]. destruct l as [|x l]; [cbn [length]; unfold cdiv; symmetry; apply Z.div_small; lia|].
    cbn [length]. set (l0 := x :: l) in *. assert (Hl0 : length l0 = S (length l)) by reflexivity.
    rewrite Nat2Z.inj_succ. rewrite IH by (rewrite skipn_length; lia).
    rewrite skipn_length. unfold cdiv. clearbody l0. rewrite <- Hl0. 
    destruct (Nat.le_gt_cases k (length l0)) as [H|H].
    + rewrite Nat2Z.inj_sub by lia.
      replace (Z.of_nat (length l0) + Z.of_nat k - 1) with ((Z.of_nat (length l0) - Z.of_nat k + Z.of_nat k - 1) + 1 * Z.of_nat k) by lia.
      rewrite Z.div_add by lia. lia.
    + replace (length l0 - k)%nat with 0%nat by lia.
      rewrite (Z.div_small (Z.of_nat 0 + Z.of_nat k - 1)) by lia.
      symmetry. change (Z.succ 0) with 1. symmetry. apply (Z.div_unique _ _ 1 (Z.of_nat (length l0) - 1)); lia.
Qed.

Lemma intervals_length {A} ri (l : list A) : 0 <= ri ->
  Z.of_nat (length (intervals ri l)) = interval_count ri (Z.of_nat (length l)).
Proof.
  intros Hr. unfold intervals, interval_count. destruct (ri =? 0) eqn:E; [reflexivity|].
  rewrite group_length by lia. now rewrite Z2Nat.id by lia.
Qed.

Lemma flat_map_len {A B} (f : A -> list B) k : forall l, (forall a, In a l -> length (f a) = k) ->
  length (flat_map f l) = (length l * k)%nat.
Proof.
  induction l as [|a l IH]; intros H; [reflexivity|]. cbn [flat_map length]. rewrite app_length, IH, H.
  - lia.
  - now left.
  - intros b Hb. apply H. now right.
Qed.
Lemma upto_length n : length (upto n) = Z.to_nat n.
Proof. unfold upto. now rewrite map_length, seq_length. Qed.

(** Component selectors *)
Lemma parse_selectors_inv : forall n pos cs p sel p'',
  parse_selectors n pos cs p = Some (sel, p'') ->
  (exists pre, p = pre ++ p'') /\ length sel = n /\
  Forall (fun x => let '(ci, c, _, _) := x in (pos <= ci)%nat /\ nth_error cs (ci - pos) = Some c) sel.
Proof.
  induction n as [|n IH]; intros pos cs p sel p'' H.
  - cbn in H. inversion H; subst. split; [now exists []|]. split; [reflexivity|constructor].
  - destruct p as [|id [|t p']]; try discriminate H. cbn [parse_selectors] in H.
    revert pos H. induction cs as [|c cs IHc]; intros pos H; [discriminate|].
    destruct (co_id c =? id).
    + destruct (parse_selectors n (S pos) cs p') as [[sel' r]|] eqn:E; [|discriminate].
      inversion H; subst. destruct (IH _ _ _ _ _ E) as ((pre & ->) & Hl & Hf).
      split; [now exists (id :: t :: pre)|]. split; [cbn [length]; lia|].
      constructor; [split; [lia|now rewrite Nat.sub_diag]|].
      eapply Forall_impl; [|exact Hf]. intros [[[ci c'] td] ta] [H1 H2]. split; [lia|].
      replace (ci - pos)%nat with (S (ci - S pos)) by lia. exact H2.
    + destruct (IHc _ H) as (Hp & Hl & Hf). split; [exact Hp|]. split; [exact Hl|].
      eapply Forall_impl; [|exact Hf]. intros [[[ci c'] td] ta] [H1 H2]. split; [lia|].
      replace (ci - pos)%nat with (S (ci - S pos)) by lia. exact H2.
Qed.

(** What a scan in the file looks like. *)
Definition scan_part (f : frame) (ri : Z) (hd : list Z * list (list Z)) (si : scan_info) : Prop :=
  (exists pre, fst hd = pre ++ [si_ss si; si_se si; 0]) /\
  Z.of_nat (length (snd hd)) = interval_count ri (mcu_count f si) /\
  Z.of_nat (length (mcus_of f si)) = mcu_count f si /\
  exists sc, sc_ss sc = si_ss si /\ sc_se sc = si_se si /\
    Forall2 (interval_bits sc (length (fr_comps f))) (intervals ri (mcus_of f si)) (snd hd).

Lemma scan_mcus_count f ri cs : Forall (fun ic => nth_error (fr_comps f) (fst ic) = Some (snd ic)) cs -> 1 <= hmax f -> 1 <= vmax f ->
  0 <= fr_width f -> 0 <= fr_height f -> Forall (fun c => 0 <= co_h c /\ 0 <= co_v c) (fr_comps f) ->
  Z.of_nat (length (scan_mcus f cs)) = mcu_count f {| si_comps := map fst cs; si_ss := ri; si_se := ri |}.
Proof.
  intros Hf Hh Hv Hw Hht Hc. unfold mcu_count. cbn [si_comps].
  assert (I : Z.of_nat (length (interleaved_mcus f cs)) = mcus_wide f * mcus_high f).
  { unfold interleaved_mcus.
    rewrite (flat_map_len _ (Z.to_nat (mcus_wide f))) by (intros; now rewrite map_length, upto_length).
    rewrite upto_length. unfold mcus_wide, mcus_high, cdiv.
    pose proof (Z.div_pos (fr_width f + 8 * hmax f - 1) (8 * hmax f) ltac:(lia) ltac:(lia)).
    pose proof (Z.div_pos (fr_height f + 8 * vmax f - 1) (8 * vmax f) ltac:(lia) ltac:(lia)).
    rewrite Nat2Z.inj_mul, !Z2Nat.id by lia. lia. }
  destruct cs as [|[ci c] [|ic2 cs]]; cbn [map fst]; cbn [scan_mcus]; try exact I.
  inversion Hf as [|? ? E _]; subst. cbn [fst snd] in E. rewrite E.
  unfold single_mcus.
  rewrite (flat_map_len _ (Z.to_nat (blocks_wide f c))) by (intros; now rewrite map_length, upto_length).
  rewrite upto_length. unfold blocks_wide, blocks_high, comp_width, comp_height, cdiv.
  rewrite Forall_forall in Hc. destruct (Hc c (nth_error_In _ _ E)) as [H1 H2].
  assert (0 <= fr_width f * co_h c) by (apply Z.mul_nonneg_nonneg; lia).
  assert (0 <= fr_height f * co_v c) by (apply Z.mul_nonneg_nonneg; lia).
  pose proof (Z.div_pos (fr_width f * co_h c + hmax f - 1) (hmax f) ltac:(lia) ltac:(lia)).
  pose proof (Z.div_pos (fr_height f * co_v c + vmax f - 1) (vmax f) ltac:(lia) ltac:(lia)).
  set (a := (fr_width f * co_h c + hmax f - 1) / hmax f) in *.
  set (b := (fr_height f * co_v c + vmax f - 1) / vmax f) in *. clearbody a b.
  pose proof (Z.div_pos (a + 8 - 1) 8 ltac:(lia) ltac:(lia)).
  pose proof (Z.div_pos (b + 8 - 1) 8 ltac:(lia) ltac:(lia)).
  rewrite Nat2Z.inj_mul, !Z2Nat.id by lia. lia.
Qed.

Definition frame_wf (f : frame) : Prop :=
  0 <= fr_width f /\ 0 <= fr_height f /\ Forall (fun c => 0 <= co_h c /\ 0 <= co_v c) (fr_comps f).

Lemma hmax_pos f : 1 <= hmax f.
Proof. unfold hmax. induction (fr_comps f); cbn [fold_right]; lia. Qed.
Lemma vmax_pos f : 1 <= vmax f.
Proof. unfold vmax. induction (fr_comps f); cbn [fold_right]; lia. Qed.

Lemma decode_scan_inv st l st' rest f : byte_list l -> 0 <= st_ri st -> st_frame st = Some f -> frame_wf f ->
  decode_scan st l = Some (st', rest) ->
  exists h ds si, l = length_field h ++ h ++ coded_data 0 ds ++ rest /\
    st_frame st' = Some f /\ st_ri st' = st_ri st /\ st_app st' = st_app st /\
    st_scans st' = st_scans st ++ [si] /\ scan_part f (st_ri st) (h, ds) si.
Proof.
  intros Hb Hr Hf (Hw & Hh & Hcc) H. unfold decode_scan in H. rewrite Hf in H.
  destruct (segment l) as [[p r]|] eqn:Es; [|discriminate].
  apply segment_inv in Es; [|exact Hb]. subst l.
  destruct p as [|ns p']; [discriminate|].
  destruct ((1 <=? ns) && (ns <=? 4)) eqn:E1; [|discriminate].
  destruct (parse_selectors (Z.to_nat ns) 0 (fr_comps f) p') as [[sel p'']|] eqn:Esel; [|discriminate].
  destruct p'' as [|ss [|se [|ahal [|? ?]]]]; try discriminate.
  set (cs := map (fun '(ci, c, _, _) => (ci, c)) sel) in *.
  repeat match type of H with
  | (if ?b then _ else _) = _ => let E := fresh "G" in destruct b eqn:E; [|discriminate]
  end.
  match type of H with context [decode_intervals ?sc ?n 0 ?ii r] =>
    destruct (decode_intervals sc n 0 ii r) as [[es rr]|] eqn:Ed; [|discriminate];
    destruct (decode_intervals_inv _ _ _ _ _ _ _ Ed) as (ds & -> & Hds); set (sc0 := sc) in *
  end.
  inversion H; subst st' rr. clear H.
  destruct (parse_selectors_inv _ _ _ _ _ _ Esel) as ((pre & Ep) & Hl & Hsel).
  exists (ns :: p'), ds, {| si_comps := map fst cs; si_ss := ss; si_se := se |}.
  cbn [st_frame st_ri st_app st_scans].
  split; [reflexivity|]. split; [reflexivity|]. do 3 (split; [reflexivity|]).
  assert (Hn : Forall (fun ic : nat * comp => nth_error (fr_comps f) (fst ic) = Some (snd ic)) cs).
  { unfold cs. clear - Hsel. induction Hsel as [|[[[ci c] td] ta] l H Hl IH]; [constructor|].
    cbn [map]. constructor; [|exact IH]. cbn [fst snd]. destruct H as [_ H]. now rewrite Nat.sub_0_r in H. }
  assert (Em : Z.of_nat (length (scan_mcus f cs)) = mcu_count f {| si_comps := map fst cs; si_ss := ss; si_se := se |}).
  { rewrite (scan_mcus_count f 0 cs Hn (hmax_pos f) (vmax_pos f) Hw Hh Hcc). reflexivity. }
  assert (Ecs : flat_map (fun ci => match nth_error (fr_comps f) ci with Some c => [(ci, c)] | None => [] end) (map fst cs) = cs).
  { clear - Hn. induction Hn as [|[ci c] l E Hl IH]; [reflexivity|]. cbn [map flat_map fst]. cbn [fst snd] in E.
    rewrite E, IH. reflexivity. }
  split; [|split; [|split]].
  - exists (ns :: pre). cbn [fst si_ss si_se]. rewrite Ep. cbn [app].
    apply andb_prop in G as [G _]. assert (ahal = 0) as -> by lia. reflexivity.
  - cbn [snd]. rewrite <- Em. rewrite <- intervals_length by exact Hr.
    f_equal. symmetry. eapply F2_length. exact Hds.
  - unfold mcus_of. cbn [si_comps]. rewrite Ecs. exact Em.
  - exists sc0. cbn [snd si_ss si_se]. split; [reflexivity|]. split; [reflexivity|].
    unfold mcus_of. cbn [si_comps]. rewrite Ecs. exact Hds.
Qed.

Lemma parse_sof_wf p f b : byte_list p -> parse_sof b p = Some f -> frame_wf f.
Proof.
  intros Hb H. unfold parse_sof in H. destruct p as [|prec [|y1 [|y0 [|x1 [|x0 [|nf p']]]]]]; try discriminate.
  destruct ((prec =? 8) && (1 <=? nf) && (nf <=? 4)); [|discriminate].
  destruct (parse_comps (Z.to_nat nf) p') as [cs|] eqn:E; [|discriminate].
  match type of H with (if ?b then _ else _) = _ => destruct b; [|discriminate] end.
  unfold byte_list in Hb. rewrite !Forall_cons_iff in Hb. destruct Hb as (B0 & B1 & B2 & B3 & B4 & _).
  assert (Hh : 0 <= 256 * y1 + y0) by lia. assert (Hw : 0 <= 256 * x1 + x0) by lia.
  set (h := 256 * y1 + y0) in *. set (w := 256 * x1 + x0) in *. clearbody h w. injection H as <-.
  unfold frame_wf. cbn [fr_width fr_height fr_comps]. split; [lia|]. split; [lia|].
  clear - E. revert p' cs E. induction (Z.to_nat nf) as [|n IH]; intros p' cs E.
  - destruct p'; inversion E; constructor.
  - destruct p' as [|id [|hv [|tq p']]]; try discriminate. cbn [parse_comps] in E.
    match type of E with (if ?b then _ else _) = _ => destruct b eqn:G; [|discriminate] end.
    destruct (parse_comps n p') as [cs'|] eqn:E'; [|discriminate]. inversion E; subst.
    constructor; [cbn [co_h co_v]; lia|]. now apply (IH p').
Qed.

Definition u16b (v : Z) : list Z := [v / 256; v mod 256].

Lemma decode_segments_inv : forall fuel st l st' f',
  byte_list l -> 0 <= st_ri st -> (forall f, st_frame st = Some f -> frame_wf f) ->
  decode_segments fuel st l = Some st' -> st_frame st' = Some f' ->
  exists ps infos, l = flat_map render ps ++ [255; 217] /\
    (forall f, st_frame st = Some f -> f' = f) /\
    st_scans st' = st_scans st ++ infos /\ Forall2 (scan_part f' (st_ri st')) (scans ps) infos /\
    st_app st' = st_app st ++ app_segments ps /\
    (st_ri st <> 0 \/ st_scans st <> [] -> st_ri st' = st_ri st /\ dri_segments ps = []) /\
    (st_ri st = 0 -> dri_segments ps = if st_ri st' =? 0 then [] else [u16b (st_ri st')]).
Proof.
  induction fuel as [|fuel IH]; intros st l st' f' Hb Hr Hfw H Hf'; [discriminate|].
  cbn [decode_segments] in H. destruct l as [|ff [|m l']]; try discriminate.
  destruct (ff =? 255) eqn:Eff; [|discriminate]. assert (ff = 255) as -> by lia.
  inversion Hb as [|? ? _ Hb1]; subst. inversion Hb1 as [|? ? Hm Hb2]; subst. clear Hb Hb1.
  destruct (m =? 217) eqn:E217.
  { destruct l'; [|discriminate]. inversion H; subst st'. assert (m = 217) as -> by lia.
    exists [], []. cbn. rewrite !app_nil_r. split; [reflexivity|]. split; [intros f E; congruence|].
    split; [reflexivity|]. split; [constructor|]. split; [reflexivity|]. split; [auto|].
    intros E. rewrite E. reflexivity. }
  destruct (m =? 218) eqn:E218.
  { assert (m = 218) as -> by lia.
    destruct (decode_scan st l') as [[st1 l1]|] eqn:Ed; [|discriminate].
    destruct (st_frame st) as [f|] eqn:Ef; [|unfold decode_scan in Ed; rewrite Ef in Ed; discriminate].
    destruct (decode_scan_inv _ _ _ _ _ Hb2 Hr Ef (Hfw f eq_refl) Ed) as (h & ds & si & El & F1 & F2 & F3 & F4 & F5).
    subst l'. apply byte_list_app in Hb2 as [_ Hb2]. apply byte_list_app in Hb2 as [_ Hb2].
    apply byte_list_app in Hb2 as [_ Hb2].
    destruct (IH st1 l1 st' f' Hb2 ltac:(lia) ltac:(intros f0 E0; rewrite F1 in E0; inversion E0; subst; now apply Hfw) H Hf')
      as (ps & infos & El1 & G1 & G2 & G3 & G4 & G5 & G6).
    subst l1. destruct G5 as [G5 G7]; [right; rewrite F4; destruct (st_scans st); discriminate|].
    specialize (G1 f F1). subst f'.
    exists (Scan h ds :: ps), (si :: infos). cbn [flat_map render scans app_segments dri_segments app].
    split; [rewrite <- !app_assoc; reflexivity|]. split; [now intros f0 [= <-]|].
    split; [rewrite G2, F4, <- app_assoc; reflexivity|].
    split; [constructor; [rewrite G5, F2; exact F5|exact G3]|].
    split; [rewrite G4, F3; reflexivity|]. rewrite F2 in G5. rewrite G5. split; [intros _; split; [reflexivity|exact G7]|].
    intros E0. rewrite E0. exact G7. }
  destruct ((224 <=? m) && (m <=? 239)) eqn:Eapp.
  { destruct (segment l') as [[p l1]|] eqn:Es; [|discriminate]. apply segment_inv in Es; [|exact Hb2]. subst l'.
    apply byte_list_app in Hb2 as [_ Hb2]. apply byte_list_app in Hb2 as [_ Hb2].
    pose proof (fun a b => IH _ l1 st' f' Hb2 a b H Hf') as IH'.
    destruct (IH' Hr Hfw) as (ps & infos & El1 & G1 & G2 & G3 & G4 & G5 & G6).
    subst l1. cbn [st_frame st_scans st_ri st_app] in *.
    exists (Segment m p :: ps), infos. unfold app_segments, dri_segments, scans in *. cbn [flat_map render app].
    rewrite Eapp. replace (m =? 221) with false by lia. cbn [app].
    split; [rewrite <- !app_assoc; reflexivity|]. split; [exact G1|]. split; [exact G2|]. split; [exact G3|].
    split; [rewrite G4, <- app_assoc; reflexivity|]. split; [exact G5|exact G6]. }
  destruct (m =? 219) eqn:E219.
  { destruct (segment l') as [[p l1]|] eqn:Es; [|discriminate]. apply segment_inv in Es; [|exact Hb2]. subst l'.
    apply byte_list_app in Hb2 as [_ Hb2]. apply byte_list_app in Hb2 as [_ Hb2].
    destruct (parse_dqt (length p) p (st_qt st)); [|discriminate].
    pose proof (fun a b => IH _ l1 st' f' Hb2 a b H Hf') as IH'.
    destruct (IH' Hr Hfw) as (ps & infos & El1 & G1 & G2 & G3 & G4 & G5 & G6).
    subst l1. cbn [st_frame st_scans st_ri st_app] in *.
    exists (Segment m p :: ps), infos. unfold app_segments, dri_segments, scans in *. cbn [flat_map render app].
    rewrite Eapp. replace (m =? 221) with false by lia. cbn [app].
    split; [rewrite <- !app_assoc; reflexivity|]. split; [exact G1|]. split; [exact G2|]. split; [exact G3|].
    split; [exact G4|]. split; [exact G5|exact G6]. }
  destruct (m =? 196) eqn:E196.
  { destruct (segment l') as [[p l1]|] eqn:Es; [|discriminate]. apply segment_inv in Es; [|exact Hb2]. subst l'.
    apply byte_list_app in Hb2 as [_ Hb2]. apply byte_list_app in Hb2 as [_ Hb2].
    destruct (parse_dht (length p) p (st_dc st) (st_ac st)) as [[dc ac]|]; [|discriminate].
    pose proof (fun a b => IH _ l1 st' f' Hb2 a b H Hf') as IH'.
    destruct (IH' Hr Hfw) as (ps & infos & El1 & G1 & G2 & G3 & G4 & G5 & G6).
    subst l1. cbn [st_frame st_scans st_ri st_app] in *.
    exists (Segment m p :: ps), infos. unfold app_segments, dri_segments, scans in *. cbn [flat_map render app].
    rewrite Eapp. replace (m =? 221) with false by lia. cbn [app].
    split; [rewrite <- !app_assoc; reflexivity|]. split; [exact G1|]. split; [exact G2|]. split; [exact G3|].
    split; [exact G4|]. split; [exact G5|exact G6]. }
  destruct ((m =? 192) || (m =? 194)) eqn:Esof.
  { destruct (segment l') as [[p l1]|] eqn:Es; [|discriminate]. apply segment_inv in Es; [|exact Hb2]. subst l'.
    apply byte_list_app in Hb2 as [_ Hb2]. apply byte_list_app in Hb2 as [Hp Hb2].
    destruct (parse_sof (m =? 194) p) as [f|] eqn:Ep; [|discriminate].
    destruct (st_frame st) as [f0|] eqn:Ef; [discriminate|]. cbn [is_some negb] in H.
    pose proof (parse_sof_wf _ _ _ Hp Ep) as Hfwf.
    pose proof (fun a b => IH _ l1 st' f' Hb2 a b H Hf') as IH'.
    destruct (IH' Hr ltac:(cbn; intros f0 [= <-]; exact Hfwf)) as (ps & infos & El1 & G1 & G2 & G3 & G4 & G5 & G6).
    subst l1. cbn [st_frame st_scans st_ri st_app] in *.
    exists (Segment m p :: ps), infos. unfold app_segments, dri_segments, scans in *. cbn [flat_map render app].
    rewrite Eapp. replace (m =? 221) with false by lia. cbn [app].
    split; [rewrite <- !app_assoc; reflexivity|]. split; [discriminate|]. split; [exact G2|]. split; [exact G3|].
    split; [exact G4|]. split; [exact G5|exact G6]. }
  destruct (m =? 221) eqn:Edri; [|discriminate].
  { destruct (segment l') as [[p l1]|] eqn:Es; [|discriminate]. apply segment_inv in Es; [|exact Hb2]. subst l'.
    apply byte_list_app in Hb2 as [_ Hb2]. apply byte_list_app in Hb2 as [Hp Hb2].
    destruct p as [|a [|b [|? ?]]]; try discriminate.
    inversion Hp as [|? ? Ha Hp1]; subst. inversion Hp1 as [|? ? Hbb _]; subst. clear Hp Hp1.
    destruct ((0 <? 256 * a + b) && (st_ri st =? 0) && (length (st_scans st) =? 0)%nat) eqn:Eg; [|discriminate].
    pose proof (fun a b => IH _ l1 st' f' Hb2 a b H Hf') as IH'.
    destruct (IH' ltac:(cbn [st_ri]; lia) Hfw) as (ps & infos & El1 & G1 & G2 & G3 & G4 & G5 & G6).
    subst l1. cbn [st_frame st_scans st_ri st_app] in *.
    destruct G5 as [G5 G7]; [left; lia|].
    exists (Segment m [a; b] :: ps), infos. unfold app_segments, dri_segments, scans in *. cbn [flat_map render app].
    rewrite Eapp, Edri. cbn [app].
    split; [reflexivity|]. split; [exact G1|]. split; [exact G2|]. split; [exact G3|].
    split; [exact G4|]. split.
    - intros [Hn|Hn]; [lia|]. destruct (st_scans st); [now contradiction Hn|cbn in Eg; lia].
    - intros _. rewrite G7, G5. replace (256 * a + b =? 0) with false by lia. unfold u16b.
      replace ((256 * a + b) / 256) with a by lia. replace ((256 * a + b) mod 256) with b by lia. reflexivity. }
Qed.

(** Files the decoder accepts. *)
Lemma decode_structure bytes j : decode bytes = Some j ->
  exists ps, bytes = render_file ps /\
    Forall2 (scan_part (j_frame j) (j_ri j)) (scans ps) (j_scans j) /\
    app_segments ps = j_app j /\
    dri_segments ps = (if j_ri j =? 0 then [] else [u16b (j_ri j)]).
Proof.
  unfold decode. destruct (forallb is_byte bytes) eqn:Eb; [|discriminate].
  assert (Hb : byte_list bytes).
  { apply Forall_forall. intros x Hx. rewrite forallb_forall in Eb. specialize (Eb x Hx). unfold is_byte in Eb. lia. }
  destruct bytes as [|ff [|m l]]; try discriminate.
  destruct ((ff =? 255) && (m =? 216)) eqn:E; [|discriminate].
  destruct (decode_segments (length l) init_state l) as [st|] eqn:Ed; [|discriminate].
  destruct (st_frame st) as [f|] eqn:Ef; [|discriminate]. intros [= <-]. cbn [j_frame j_ri j_scans j_app].
  inversion Hb as [|? ? _ Hb1]; subst. inversion Hb1 as [|? ? _ Hb2]; subst.
  destruct (decode_segments_inv _ init_state l st f Hb2 ltac:(cbn; lia) ltac:(discriminate) Ed Ef)
    as (ps & infos & -> & _ & G2 & G3 & G4 & _ & G6).
  cbn in G2, G4. exists ps. split; [|split; [|split]].
  - unfold render_file. assert (ff = 255) as -> by lia. assert (m = 216) as -> by lia. reflexivity.
  - rewrite G2. exact G3.
  - now rewrite G4.
  - now apply G6.
Qed.

(** ** No stray markers *)
Lemma no_stray_stuffed d rest : byte_list d ->
  no_stray_marker (stuffed d ++ rest) = no_stray_marker rest.
Proof.
  intros Hd. induction Hd as [|b d Hb Hd IH]; [reflexivity|].
  change (stuffed (b :: d)) with ((if b =? 255 then [255; 0] else [b]) ++ stuffed d).
  destruct (b =? 255) eqn:E; cbn [app no_stray_marker].
  - change (255 =? 255) with true. cbn [Z.eqb orb andb no_stray_marker]. exact IH.
  - rewrite E. exact IH.
Qed.
Lemma stuffed_ok_inv d : byte_list (stuffed d) -> byte_list d.
Proof.
  induction d as [|b d IH]; intros H; [constructor|].
  change (stuffed (b :: d)) with ((if b =? 255 then [255; 0] else [b]) ++ stuffed d) in H.
  apply byte_list_app in H as [H1 H2]. constructor; [|now apply IH].
  destruct (b =? 255) eqn:E; [lia|]. now inversion H1.
Qed.
Lemma no_stray_coded ds : forall m, byte_list (coded_data m ds) -> no_stray_marker (coded_data m ds) = true.
Proof.
  induction ds as [|d ds IH]; intros m Hb; [reflexivity|].
  destruct ds as [|d2 ds].
  - cbn [coded_data] in *. rewrite <- (app_nil_r (stuffed d)). apply no_stray_stuffed. now apply stuffed_ok_inv.
  - change (coded_data m (d :: d2 :: ds)) with (stuffed d ++ [255; 208 + m mod 8] ++ coded_data (m + 1) (d2 :: ds)) in *.
    apply byte_list_app in Hb as [H1 H2]. apply byte_list_app in H2 as [_ H2].
    rewrite no_stray_stuffed by now apply stuffed_ok_inv.
    cbn [app no_stray_marker]. rewrite IH by exact H2.
    change (255 =? 255) with true. cbv iota.
    assert (Em : 0 <= m mod 8 < 8) by (apply Z.mod_pos_bound; lia).
    replace (208 + m mod 8 =? 255) with false by lia.
    replace ((208 + m mod 8 =? 0) || ((208 <=? 208 + m mod 8) && (208 + m mod 8 <=? 215))) with true by lia.
    reflexivity.
Qed.
