(** What a successful decoding of the reference encoder's output (SEncode.v) implies. *)
From Coq Require Import ZArith List Bool Lia ZifyBool ZifyNat.
From Verif Require Import T81 SFile SEncode SSize SRestart PParts PParse PBytes PSegments.
Import ListNotations.
Open Scope Z_scope.
Local Ltac Zify.zify_post_hook ::= Z.div_mod_to_equations.

Definition storable_tables (t : tables) : Prop := forall d, storable (tb_dc t d) /\ storable (tb_ac t d).
Definition apps_ok (apps : list (Z * list Z)) : Prop :=
  Forall (fun a => 0 <= fst a <= 15 /\ Z.of_nat (length (snd a)) <= 65533) apps.

(** ** Lengths *)
Lemma storable_lengths h tb : storable h -> build_table (fst h) (snd h) = Some tb ->
  length (fst h) = 16%nat /\ (length (snd h) <= 256)%nat /\ Z.to_nat (fold_right Z.add 0 (fst h)) = length (snd h).
Proof.
  intros [_ Hv] Hb. unfold build_table in Hb.
  destruct ((length (fst h) =? 16)%nat && distinct (snd h)) eqn:E; [|discriminate].
  apply andb_prop in E as [E1 E2].
  destruct (canonical_codes 1 0 (fst h)) as [cs|] eqn:E3; [|discriminate].
  destruct (length cs =? length (snd h))%nat eqn:E4; [|discriminate].
  apply canonical_codes_length in E3. split; [lia|]. split; [|lia].
  exact (NoDup_bytes_length _ (distinct_NoDup _ E2) Hv).
Qed.

Lemma upto_nonempty n : 1 <= n -> upto n <> [].
Proof. intros H E. assert (L := upto_length n). rewrite E in L. cbn in L. lia. Qed.
Lemma flat_map_nonempty {A B} (f : A -> list B) l : l <> [] -> (forall a, f a <> []) -> flat_map f l <> [].
Proof. destruct l as [|a l]; [contradiction|]. intros _ H E. cbn [flat_map] in E. apply app_eq_nil in E as [E _]. now apply (H a). Qed.
Lemma map_nonempty {A B} (f : A -> B) l : l <> [] -> map f l <> [].
Proof. destruct l; [contradiction|]. discriminate. Qed.
Lemma cdiv_pos a b : 1 <= a -> 1 <= b -> 1 <= cdiv a b.
Proof. intros Ha Hb. unfold cdiv. apply Z.div_le_lower_bound; lia. Qed.

Lemma comps_pos s color c : In c (comps_of s color) -> 1 <= co_h c /\ 1 <= co_v c.
Proof.
  unfold comps_of. destruct s; cbn [factors]; destruct color; cbn [In]; intuition (subst; cbn; lia).
Qed.

Section File.
  Variable T : transform.
  Variable t : tables.
  Variable s : settings.
  Variable color : jcolor.
  Variable pl : planes.
  Variable w h : Z.
  Variable Hw : 1 <= w <= 65535.
  Variable Hh : 1 <= h <= 65535.
  Variable Ht : storable_tables t.
  Variable Ha : apps_ok (apps_for s color).
  Variable Hri : 0 <= s_restart s < 65536.
  Let f := frame_for s color w h.
  Let cf := coefficients_of T s color pl w h.
  Let cs := comps_of (s_sampling s) color.

  Lemma mcus_nonempty si : (forall ci, In ci (si_comps si) -> (ci < length cs)%nat) -> mcus_of f si <> [].
  Proof.
    intros Hc. unfold mcus_of. pose proof (hmax_pos f) as Hm. pose proof (vmax_pos f) as Hv.
    assert (I : forall l, interleaved_mcus f l <> []).
    { intros l. unfold interleaved_mcus. apply flat_map_nonempty.
      - apply upto_nonempty, cdiv_pos; cbn [f frame_for fr_height]; lia.
      - intros a. apply map_nonempty, upto_nonempty, cdiv_pos; cbn [f frame_for fr_width]; lia. }
    unfold scan_mcus.
    destruct (flat_map _ (si_comps si)) as [|[ci c] [|]] eqn:E; try apply I.
    assert (Hin : In (ci, c) (flat_map (fun ci => match nth_error (fr_comps f) ci with Some c => [(ci, c)] | None => [] end) (si_comps si)))
      by (rewrite E; now left).
    apply in_flat_map in Hin as (k & _ & Hk). destruct (nth_error (fr_comps f) k) as [c'|] eqn:En; [|destruct Hk].
    destruct Hk as [[= -> ->]|[]]. apply nth_error_In in En. destruct (comps_pos _ _ _ En) as [Hch Hcv].
    unfold single_mcus. apply flat_map_nonempty; [|intros a; apply map_nonempty]; apply upto_nonempty; unfold blocks_high, blocks_wide;
      apply cdiv_pos; try lia; apply cdiv_pos; try lia; cbn [f frame_for fr_width fr_height]; nia.
  Qed.
  Lemma intervals_nonempty {A} ri (l : list A) : l <> [] -> intervals ri l <> [].
  Proof. unfold intervals. destruct (ri =? 0); [discriminate|]. destruct l; [contradiction|discriminate]. Qed.

  Lemma script_comps si : In si (scan_script s color) -> forall ci, In ci (si_comps si) -> (ci < length cs)%nat.
  Proof.
    assert (S : forall b si, In si (single_scans (length cs) b) -> forall ci, In ci (si_comps si) -> (ci < length cs)%nat).
    { intros b si0 H ci Hc. apply in_map_iff in H as (k & <- & Hk). destruct Hc as [<-|[]]. apply in_seq in Hk. lia. }
    unfold scan_script. fold cs. destruct (factors (s_sampling s)) as [hh vv]. destruct (s_scans s) as [n|].
    - intros H. apply in_app_or in H as [H|H]; [now apply (S (0, 0))|].
      apply in_flat_map in H as (b & _ & H). now apply (S b).
    - destruct (negb (s_optimize s) && (hh <=? 2) && (vv <=? 2)).
      + intros [<-|[]] ci Hc. cbn [si_comps] in Hc. apply in_seq in Hc. lia.
      + apply S.
  Qed.

  Lemma comps_length : (1 <= length cs <= 4)%nat.
  Proof. unfold cs, comps_of. destruct (factors (s_sampling s)), color; cbn; lia. Qed.

  Lemma header_length si : In si (scan_script s color) -> (length (scan_header f si) <= 12)%nat.
  Proof.
    intros H. unfold scan_header. rewrite !app_length. cbn [length].
    assert (L : (length (si_comps si) <= 4)%nat).
    { pose proof comps_length as Hl. revert H.
      assert (S : forall b si, In si (single_scans (length cs) b) -> (length (si_comps si) <= 4)%nat).
      { intros b si0 H. apply in_map_iff in H as (k & <- & _). cbn. lia. }
      unfold scan_script. fold cs. destruct (factors (s_sampling s)) as [hh vv]. destruct (s_scans s) as [n|].
      - intros H. apply in_app_or in H as [H|H]; [now apply (S (0, 0))|].
        apply in_flat_map in H as (b & _ & H). now apply (S b).
      - destruct (negb (s_optimize s) && (hh <=? 2) && (vv <=? 2)).
        + intros [<-|[]]. cbn [si_comps]. rewrite seq_length. lia.
        + apply S. }
    assert (G : forall l, (length (flat_map (fun ci => match nth_error (fr_comps f) ci with
        Some c => [co_id c; (16 * co_tq c + co_tq c)%Z] | None => [] end) l) <= 2 * length l)%nat).
    { induction l as [|ci l IH]; [cbn; lia|]. cbn [flat_map]. rewrite app_length. destruct (nth_error (fr_comps f) ci); cbn [length]; lia. }
    specialize (G (si_comps si)). lia.
  Qed.

  Lemma parts_ok : Forall part_ok (file_parts t s f color cf).
  Proof.
    unfold file_parts. apply Forall_app. split; [|apply Forall_app; split; [|apply Forall_app; split; [|apply Forall_app; split]]].
    - apply Forall_forall. intros p Hp. apply in_map_iff in Hp as ([nr d] & <- & Hin).
      unfold apps_ok in Ha. rewrite Forall_forall in Ha. destruct (Ha _ Hin) as [H1 H2]. cbn [fst snd] in *.
      cbn [part_ok]. unfold is_rst. lia.
    - assert (D : forall class dest hh, storable hh -> part_ok (dht class dest hh)).
      { intros class dest hh Hst. pose proof Hst as [[tb Hb] _]. destruct (storable_lengths hh tb Hst Hb) as (L1 & L2 & _).
        cbn [dht part_ok length]. rewrite app_length. unfold is_rst. lia. }
      assert (Q : forall d, part_ok (dqt s d)).
      { intros d. unfold dqt. cbn [part_ok length]. rewrite map_length. change (length zigzag) with 64%nat. unfold is_rst. lia. }
      constructor; [|constructor; [apply Q|constructor; [apply Q|constructor; [apply D, Ht|constructor; [apply D, Ht|constructor]]]]].
      unfold sof. cbn [part_ok length app u16_bytes].
      rewrite (flat_map_len _ 3) by reflexivity. pose proof comps_length. cbn [f frame_for fr_comps]. fold cs.
      unfold is_rst. destruct (fr_progressive _); lia.
    - destruct (3 <=? length (fr_comps f))%nat; [|constructor].
      assert (D : forall class dest hh, storable hh -> part_ok (dht class dest hh)).
      { intros class dest hh Hst. pose proof Hst as [[tb Hb] _]. destruct (storable_lengths hh tb Hst Hb) as (L1 & L2 & _).
        cbn [dht part_ok length]. rewrite app_length. unfold is_rst. lia. }
      constructor; [apply D, Ht|constructor; [apply D, Ht|constructor]].
    - unfold dri. destruct (s_restart s =? 0); [constructor|]. constructor; [|constructor]. cbn [part_ok u16_bytes length]. unfold is_rst. lia.
    - apply Forall_forall. intros p Hp. apply in_map_iff in Hp as (si & <- & Hin). cbn [part_ok]. split.
      + pose proof (header_length si Hin). lia.
      + unfold scan_data. apply map_nonempty, intervals_nonempty, mcus_nonempty. now apply script_comps.
  Qed.

  (** ** The state after the header *)
  Definition stored (d : Z) : list Z := map (fun '(v, u) => quantizer s d (Z.of_nat (8 * v + u)) mod 256) zigzag.
  Definition tslots (b : Z -> huff) : list (option table) :=
    [Some (table_of (b 0)); if (3 <=? length cs)%nat then Some (table_of (b 1)) else None; None; None].
  Definition head_state (log : list entry) (had : list scan_info) : state :=
    {| st_frame := Some f; st_qt := [Some (stored 0); Some (stored 1); None; None];
       st_dc := tslots (tb_dc t); st_ac := tslots (tb_ac t); st_ri := s_restart s; st_app := apps_for s color;
       st_log := log; st_scans := had |}.
  Definition scan_parts : list part :=
    map (fun si => Scan (scan_header f si) (scan_data t f (s_restart s) cf si)) (scan_script s color).

  Lemma steps_apps : forall apps st, apps_ok apps ->
    steps st (map (fun '(nr, data) => Segment (224 + nr) data) apps)
    = Some {| st_frame := st_frame st; st_qt := st_qt st; st_dc := st_dc st; st_ac := st_ac st;
              st_ri := st_ri st; st_app := st_app st ++ apps; st_log := st_log st; st_scans := st_scans st |}.
  Proof.
    induction apps as [|[nr d] apps IH]; intros st H.
    - cbn [map steps]. rewrite app_nil_r. destruct st; reflexivity.
    - apply Forall_cons_iff in H as [[H1 _] H]. cbn [fst] in H1. cbn [map steps step].
      replace ((224 <=? 224 + nr) && (224 + nr <=? 239)) with true by lia.
      rewrite IH by exact H. cbn [st_frame st_qt st_dc st_ac st_ri st_app st_log st_scans].
      rewrite <- app_assoc. replace (224 + nr - 224) with nr by lia. reflexivity.
  Qed.

  Lemma parse_sof_eq : parse_sof (fr_progressive f)
    (8 :: u16_bytes (fr_height f) ++ u16_bytes (fr_width f) ++ [Z.of_nat (length (fr_comps f))] ++
     flat_map (fun c => [co_id c; 16 * co_h c + co_v c; co_tq c]) (fr_comps f)) = Some f.
  Proof.
    unfold f, frame_for. cbn [fr_progressive fr_height fr_width fr_comps].
    unfold u16_bytes. cbn [app parse_sof].
    set (p := match s_scans s with Some _ => true | None => false end).
    assert (E1 : 256 * (h / 256) + h mod 256 = h) by lia. assert (E2 : 256 * (w / 256) + w mod 256 = w) by lia.
    rewrite E1, E2.
    assert (G : forall l, Forall (fun c => 1 <= co_h c <= 4 /\ 1 <= co_v c <= 4 /\ co_tq c < 4) l ->
      parse_comps (length l) (flat_map (fun c => [co_id c; 16 * co_h c + co_v c; co_tq c]) l) = Some l).
    { induction l as [|c l IH]; intros Hl; [reflexivity|]. apply Forall_cons_iff in Hl as [Hc Hl].
      cbn [flat_map app length parse_comps].
      assert (X1 : (16 * co_h c + co_v c) / 16 = co_h c) by lia. assert (X2 : (16 * co_h c + co_v c) mod 16 = co_v c) by lia.
      rewrite X1, X2. replace ((1 <=? co_h c) && (co_h c <=? 4) && (1 <=? co_v c) && (co_v c <=? 4) && (co_tq c <? 4)) with true by lia.
      rewrite IH by exact Hl. destruct c; reflexivity. }
    pose proof comps_length as Hl. fold cs.
    replace ((8 =? 8) && (1 <=? Z.of_nat (length cs)) && (Z.of_nat (length cs) <=? 4)) with true by lia.
    rewrite Nat2Z.id. rewrite G.
    - replace (1 <=? h) with true by lia. replace (1 <=? w) with true by lia.
      assert (D : distinct (map co_id cs) = true) by (unfold cs, comps_of; destruct (factors (s_sampling s)), color; reflexivity).
      rewrite D. reflexivity.
    - assert (R : 1 <= fst (factors (s_sampling s)) <= 4 /\ 1 <= snd (factors (s_sampling s)) <= 4) by (destruct (s_sampling s); cbn; lia).
      unfold cs, comps_of. destruct (factors (s_sampling s)) as [a b]. cbn [fst snd] in R.
      destruct color; repeat (constructor; [cbn [co_h co_v co_tq]; lia|]); constructor.
  Qed.

  Lemma parse_dqt_eq d qt : d = 0 \/ d = 1 -> nth_error qt (Z.to_nat d) = Some None ->
    parse_dqt (length (d :: stored d)) (d :: stored d) qt
    = guard (forallb (fun v => 0 <? v) (stored d)); Some (set_nth qt (Z.to_nat d) (Some (stored d))).
  Proof.
    intros Hd Hq. set (l := stored d) in *. assert (L : length l = 64%nat) by (unfold l, stored; rewrite map_length; reflexivity). clearbody l.
    cbn [length parse_dqt]. replace ((0 <=? d) && (d <? 4)) with true by lia.
    rewrite <- (app_nil_r l) at 1 2. rewrite take_exact by (symmetry; exact L). rewrite app_nil_r.
    destruct (forallb (fun v => 0 <? v) l); [|reflexivity]. rewrite Hq. rewrite L. reflexivity.
  Qed.

  Lemma parse_dht_eq class dest hh dc ac : class = 0 \/ class = 1 -> dest = 0 \/ dest = 1 -> storable hh ->
    nth_error (if class =? 0 then dc else ac) (Z.to_nat dest) = Some None ->
    let p := (16 * class + dest) :: fst hh ++ snd hh in
    parse_dht (length p) p dc ac
    = Some (if class =? 0 then set_nth dc (Z.to_nat dest) (Some (table_of hh)) else dc,
            if class =? 0 then ac else set_nth ac (Z.to_nat dest) (Some (table_of hh))).
  Proof.
    intros Hc Hd Hst Hs p. pose proof Hst as [[tb Hb] _]. destruct (storable_lengths hh tb Hst Hb) as (L1 & L2 & L3).
    unfold p. cbn [length parse_dht].
    replace ((16 * class + dest) / 16) with class by lia.
    replace ((16 * class + dest) mod 16) with dest by lia.
    replace (((class =? 0) || (class =? 1)) && (dest <? 4)) with true by lia.
    rewrite (take_exact _ _ 16) by (symmetry; exact L1).
    rewrite take_all by (symmetry; exact L3).
    unfold table_of. rewrite Hb. rewrite Hs.
    destruct (length (fst hh ++ snd hh)), (class =? 0); reflexivity.
  Qed.

  Definition quant_ok : bool := forallb (fun v => 0 <? v) (stored 0) && forallb (fun v => 0 <? v) (stored 1).
  Lemma steps_file : steps init_state (file_parts t s f color cf)
    = guard quant_ok; steps (head_state [] []) scan_parts.
  Proof.
    unfold file_parts. rewrite steps_app, steps_apps by exact Ha.
    cbn [st_frame st_qt st_dc st_ac st_ri st_app st_log st_scans init_state app].
    cbn [steps]. unfold sof at 1. cbn [step].
    replace ((224 <=? (if fr_progressive f then 194 else 192)) && ((if fr_progressive f then 194 else 192) <=? 239)) with false
      by (destruct (fr_progressive f); reflexivity).
    replace ((if fr_progressive f then 194 else 192) =? 219) with false by (destruct (fr_progressive f); reflexivity).
    replace ((if fr_progressive f then 194 else 192) =? 196) with false by (destruct (fr_progressive f); reflexivity).
    replace (((if fr_progressive f then 194 else 192) =? 192) || ((if fr_progressive f then 194 else 192) =? 194)) with true
      by (destruct (fr_progressive f); reflexivity).
    replace ((if fr_progressive f then 194 else 192) =? 194) with (fr_progressive f) by (destruct (fr_progressive f); reflexivity).
    rewrite parse_sof_eq. cbn [is_some negb st_frame].
    unfold dqt. fold (stored 0) (stored 1). cbn [step].
    change ((224 <=? 219) && (219 <=? 239)) with false. change (219 =? 219) with true. cbv iota.
    cbn [st_frame st_qt st_dc st_ac st_ri st_app st_log st_scans].
    rewrite parse_dqt_eq by (auto || reflexivity).
    unfold quant_ok. destruct (forallb (fun v => 0 <? v) (stored 0)); [|reflexivity]. cbn [andb].
    cbn [st_frame st_qt st_dc st_ac st_ri st_app st_log st_scans].
    rewrite parse_dqt_eq by (auto || reflexivity).
    destruct (forallb (fun v => 0 <? v) (stored 1)); [|reflexivity].
    unfold dht. cbn [step]. change ((224 <=? 196) && (196 <=? 239)) with false. change (196 =? 219) with false. change (196 =? 196) with true. cbv iota.
    cbn [st_frame st_qt st_dc st_ac st_ri st_app st_log st_scans].
    rewrite (parse_dht_eq 0 0) by (auto || apply Ht || reflexivity).
    cbn [st_frame st_qt st_dc st_ac st_ri st_app st_log st_scans].
    rewrite (parse_dht_eq 1 0) by (auto || apply Ht || reflexivity).
    cbn [st_frame st_qt st_dc st_ac st_ri st_app st_log st_scans].
    rewrite steps_app.
    assert (E : forall st, st_ri st = 0 -> st_scans st = [] -> steps st (dri (s_restart s))
      = Some {| st_frame := st_frame st; st_qt := st_qt st; st_dc := st_dc st; st_ac := st_ac st;
                st_ri := s_restart s; st_app := st_app st; st_log := st_log st; st_scans := st_scans st |}).
    { intros st E1 E2. unfold dri. destruct (s_restart s =? 0) eqn:E.
      - replace (s_restart s) with 0 by lia. cbn [steps]. destruct st. cbn in *. subst. reflexivity.
      - cbn [steps step u16_bytes]. change ((224 <=? 221) && (221 <=? 239)) with false. change (221 =? 219) with false.
        change (221 =? 196) with false. change ((221 =? 192) || (221 =? 194)) with false. change (221 =? 221) with true. cbv iota.
        rewrite E1, E2. assert (X : 256 * (s_restart s / 256) + s_restart s mod 256 = s_restart s) by lia. rewrite X.
        replace (0 <? s_restart s) with true by lia. reflexivity. }
    change (length (fr_comps f)) with (length cs). unfold head_state, tslots.
    destruct (3 <=? length cs)%nat.
    - cbn [steps step]. change ((224 <=? 196) && (196 <=? 239)) with false. change (196 =? 219) with false. change (196 =? 196) with true. cbv iota.
      cbn [st_frame st_qt st_dc st_ac st_ri st_app st_log st_scans].
      rewrite (parse_dht_eq 0 1) by (auto || apply Ht || reflexivity).
      cbn [st_frame st_qt st_dc st_ac st_ri st_app st_log st_scans].
      rewrite (parse_dht_eq 1 1) by (auto || apply Ht || reflexivity).
      cbn [st_frame st_qt st_dc st_ac st_ri st_app st_log st_scans].
      rewrite steps_app, E by reflexivity. reflexivity.
    - cbn [steps]. rewrite steps_app, E by reflexivity. reflexivity.
  Qed.

  (** ** Scans *)
  Lemma step_scan_keeps st hd ds st' : step_scan st hd ds = Some st' ->
    exists es si, st' = {| st_frame := st_frame st; st_qt := st_qt st; st_dc := st_dc st; st_ac := st_ac st;
      st_ri := st_ri st; st_app := st_app st; st_log := st_log st ++ es; st_scans := st_scans st ++ [si] |}.
  Proof.
    unfold step_scan. destruct (st_frame st) as [f0|]; [|discriminate].
    destruct hd as [|ns p']; [discriminate|].
    destruct ((1 <=? ns) && (ns <=? 4)); [|discriminate].
    destruct (parse_selectors (Z.to_nat ns) 0 (fr_comps f0) p') as [[sel p'']|]; [|discriminate].
    destruct p'' as [|ss [|se [|ahal [|? ?]]]]; try discriminate. cbv zeta.
    repeat match goal with |- (if ?b then _ else _) = _ -> _ => destruct b; [|discriminate] end.
    match goal with |- context [read_intervals ?sc ?n ?ints ds] => destruct (read_intervals sc n ints ds) as [es|]; [|discriminate] end.
    intros [= <-]. do 2 eexists. reflexivity.
  Qed.

  Lemma select_one ci c tail : nth_error cs ci = Some c ->
    parse_selectors 1 0 cs (co_id c :: (16 * co_tq c + co_tq c) :: tail) = Some ([(ci, c, co_tq c, co_tq c)], tail).
  Proof.
    unfold cs, comps_of. destruct (factors (s_sampling s)) as [a b].
    destruct color; destruct ci as [|[|[|[|ci]]]]; cbn [nth_error]; intros H;
      try (destruct ci; discriminate H); try discriminate H;
      match type of H with Some ?a = Some ?b => assert (E : b = a) by congruence; rewrite E; reflexivity end.
  Qed.
  Lemma comp_tq ci c : nth_error cs ci = Some c -> co_tq c = 0 \/ (co_tq c = 1 /\ (3 <=? length cs)%nat = true).
  Proof.
    unfold cs, comps_of. destruct (factors (s_sampling s)) as [a b]. intros H. apply nth_error_In in H.
    destruct color; cbn [In] in H; intuition (subst; cbn; auto).
  Qed.
  Lemma slot_tables (b : Z -> huff) ci c : nth_error cs ci = Some c -> slot (tslots b) (co_tq c) = Some (table_of (b (co_tq c))).
  Proof.
    intros H. destruct (comp_tq ci c H) as [->|[-> H3]]; unfold tslots; [reflexivity|]. rewrite H3. reflexivity.
  Qed.

  Lemma step_single log had ci c ss se ds st' : nth_error cs ci = Some c ->
    let si := {| si_comps := [ci]; si_ss := ss; si_se := se |} in
    step_scan (head_state log had) (scan_header f si) ds = Some st' ->
    spectral_ok (fr_progressive f) 1 ss se = true /\
    exists sc es, read_intervals sc (length cs) (intervals (s_restart s) (mcus_of f si)) ds = Some es /\
      st' = head_state (log ++ es) (had ++ [si]) /\ sc_ss sc = ss /\
      sc_dc sc ci = Some (table_of (tb_dc t (co_tq c))).
  Proof.
    intros Hc si. unfold step_scan, scan_header. cbn [head_state st_frame]. cbn [si_comps si_ss si_se si length flat_map].
    change (fr_comps f) with cs. rewrite Hc. cbn [app]. change (Z.of_nat 1) with 1. change ((1 <=? 1) && (1 <=? 4)) with true. cbv iota.
    change (Z.to_nat 1) with 1%nat. rewrite (select_one ci c _ Hc). cbn [map length].
    change (0 =? 0) with true. cbn [andb]. destruct (spectral_ok (fr_progressive f) 1 ss se) eqn:Esp; [|discriminate].
    repeat match goal with |- (if ?b then _ else _) = _ -> _ => destruct b; [|discriminate] end.
    cbn [head_state st_frame st_qt st_dc st_ac st_ri st_app st_log st_scans].
    match goal with |- context [read_intervals ?sc ?n ?ints ds] => destruct (read_intervals sc n ints ds) as [es|] eqn:E; [|discriminate] end.
    intros [= <-]. split; [reflexivity|]. do 2 eexists. split; [|split; [reflexivity|split]].
    - unfold mcus_of. cbn [si_comps si flat_map]. change (fr_comps f) with cs. rewrite Hc. exact E.
    - reflexivity.
    - cbn [sc_dc table_for]. rewrite Nat.eqb_refl. now apply slot_tables with (ci := ci).
  Qed.

  Lemma read_intervals_inv sc n : forall ints ds es, read_intervals sc n ints ds = Some es ->
    forall i, In i ints -> exists d es1, read_interval sc n i d = Some es1 /\ incl es1 es.
  Proof.
    induction ints as [|i0 ints IH]; intros ds es H i Hi; [destruct Hi|].
    destruct ds as [|d ds]; [destruct ints; discriminate H|].
    destruct ints as [|i1 ints].
    - destruct Hi as [<-|[]]. destruct ds as [|d2 ds].
      + exists d, es. split; [exact H|apply incl_refl].
      + cbn [read_intervals] in H. destruct (read_interval sc n i0 d); discriminate H.
    - change (read_intervals sc n (i0 :: i1 :: ints) (d :: ds)) with
        (do es <- read_interval sc n i0 d; do es' <- read_intervals sc n (i1 :: ints) ds; Some (es ++ es')) in H.
      destruct (read_interval sc n i0 d) as [es0|] eqn:E0; [|discriminate].
      destruct (read_intervals sc n (i1 :: ints) ds) as [es'|] eqn:E1; [|discriminate]. injection H as <-.
      destruct Hi as [<-|Hi].
      + exists d, es0. split; [exact E0|apply incl_appl, incl_refl].
      + destruct (IH ds es' E1 i Hi) as (d' & es1 & H1 & H2). exists d', es1. split; [exact H1|now apply incl_appr].
  Qed.

  (** Scans of one component each. *)
  Definition singles (sis : list scan_info) : Prop :=
    Forall (fun si => exists ci c, si_comps si = [ci] /\ nth_error cs ci = Some c) sis.
  Lemma steps_singles (data : scan_info -> list (list Z)) : forall sis log had st', singles sis ->
    steps (head_state log had) (map (fun si => Scan (scan_header f si) (data si)) sis) = Some st' ->
    exists log', st' = head_state log' (had ++ sis) /\ incl log log' /\
      forall si, In si sis -> spectral_ok (fr_progressive f) 1 (si_ss si) (si_se si) = true /\
        exists ci c sc es, si_comps si = [ci] /\ nth_error cs ci = Some c /\
          read_intervals sc (length cs) (intervals (s_restart s) (mcus_of f si)) (data si) = Some es /\ incl es log' /\
          sc_ss sc = si_ss si /\ sc_dc sc ci = Some (table_of (tb_dc t (co_tq c))).
  Proof.
    induction sis as [|si sis IH]; intros log had st' Hs H.
    - cbn [map steps] in H. injection H as <-. exists log. rewrite app_nil_r. split; [reflexivity|]. split; [apply incl_refl|intros ? []].
    - apply Forall_cons_iff in Hs as [(ci & c & Ec & Hc) Hs]. cbn [map steps step] in H.
      destruct (step_scan (head_state log had) (scan_header f si) (data si)) as [st1|] eqn:E1; [|discriminate].
      destruct si as [sc0 ss se]. cbn [si_comps] in Ec. subst sc0.
      destruct (step_single log had ci c ss se _ st1 Hc E1) as (Hsp & sc & es & Hr & -> & Hss & Hdc).
      destruct (IH _ _ _ Hs H) as (log' & -> & Hi & Hall).
      exists log'. rewrite <- app_assoc. split; [reflexivity|]. split; [eapply incl_tran; [|exact Hi]; apply incl_appl, incl_refl|].
      intros si [<-|Hin]; [|now apply Hall]. split; [exact Hsp|]. exists ci, c, sc, es.
      split; [reflexivity|]. split; [exact Hc|]. split; [exact Hr|].
      split; [eapply incl_tran; [|exact Hi]; apply incl_appr, incl_refl|]. split; [exact Hss|exact Hdc].
  Qed.
End File.

(** ** DC categories of decoded data units *)
Definition dc_of (e : entry) : Z := nth 0 (en_vals e) 0.

Lemma value_of_range : forall l, 0 <= value_of l < 2 ^ Z.of_nat (length l).
Proof.
  unfold value_of. assert (G : forall l a, 0 <= a -> 0 <= fold_left (fun a b => 2 * a + Z.b2z b) l a /\
    fold_left (fun a b => 2 * a + Z.b2z b) l a < (a + 1) * 2 ^ Z.of_nat (length l)).
  { induction l as [|b l IH]; intros a Ha; [cbn; lia|]. cbn [fold_left length].
    destruct (IH (2 * a + Z.b2z b)) as [H1 H2]; [destruct b; cbn [Z.b2z]; lia|]. split; [exact H1|].
    rewrite Nat2Z.inj_succ, Z.pow_succ_r by lia. assert (0 < 2 ^ Z.of_nat (length l)) by (apply Z.pow_pos_nonneg; lia).
    destruct b; cbn [Z.b2z] in *; nia. }
  intros l. destruct (G l 0 ltac:(lia)). lia.
Qed.

Lemma category_range v n : 0 < n -> 2 ^ (n - 1) <= Z.abs v < 2 ^ n -> category v = n.
Proof.
  intros Hn Hv. unfold category. assert (0 < 2 ^ (n - 1)) by (apply Z.pow_pos_nonneg; lia).
  replace (v =? 0) with false by lia. rewrite (Z.log2_unique (Z.abs v) (n - 1)); [lia|lia|].
  replace (Z.succ (n - 1)) with n by lia. exact Hv.
Qed.

Lemma receive_category n bits v rest : 0 <= n -> receive_extend n bits = Some (v, rest) -> category v = n.
Proof.
  intros Hn H. unfold receive_extend in H. destruct (take (Z.to_nat n) bits) as [[b r]|] eqn:E; [|discriminate].
  apply PParts.take_app in E as [_ L]. injection H as <- _.
  pose proof (value_of_range b) as R. rewrite L, Z2Nat.id in R by exact Hn. set (x := value_of b) in *. clearbody x. clear L.
  destruct (Z.eq_dec n 0) as [->|Hz]. { change (2 ^ 0) with 1 in R. assert (x = 0) as -> by lia. reflexivity. }
  assert (P : 2 ^ n = 2 * 2 ^ (n - 1)) by (rewrite <- Z.pow_succ_r by lia; f_equal; lia).
  assert (0 < 2 ^ (n - 1)) by (apply Z.pow_pos_nonneg; lia).
  apply category_range; [lia|]. replace (0 <? n) with true by lia. cbn [andb].
  destruct (x <? 2 ^ (n - 1)) eqn:E; lia.
Qed.

Lemma decode_symbol_snd t : forall bits v rest, decode_symbol t bits = Some (v, rest) -> In v (map snd t).
Proof.
  induction t as [|[c v0] t IH]; intros bits v rest H; [discriminate|]. cbn [decode_symbol] in H.
  destruct (strip c bits); [injection H as <- _; now left|]. right. now apply (IH bits v rest).
Qed.

Lemma nth_set_nth {A} : forall (l : list A) i v, (i < length l)%nat -> nth_error (set_nth l i v) i = Some v.
Proof. induction l as [|a l IH]; intros i v H; [cbn in H; lia|]. destruct i; [reflexivity|]. cbn [set_nth nth_error]. apply IH. cbn in H. lia. Qed.
Lemma nth_error_lt {A} (l : list A) i a : nth_error l i = Some a -> (i < length l)%nat.
Proof. intros H. apply nth_error_Some. rewrite H. discriminate. Qed.

Lemma decode_units_dc sc ci tb : sc_ss sc = 0 -> sc_dc sc ci = Some tb ->
  forall us preds run bits es st pad p, Forall (fun u : unit_pos => fst (fst u) = ci) us -> nth_error preds ci = Some p ->
  decode_units sc (preds, run) us bits = Some (es, st, pad) ->
  map en_pos es = us /\ Forall (fun e => en_ss e = 0 /\ en_vals e <> []) es /\
  Forall (fun k => In k (map snd tb)) (dc_categories p (map dc_of es)).
Proof.
  intros Hss Hdc. induction us as [|u us IH]; intros preds run bits es st pad p Hu Hp H.
  - injection H as <- <- <-. repeat split; constructor.
  - apply Forall_cons_iff in Hu as [Hc Hu]. cbn [decode_units] in H.
    destruct (decode_unit sc (preds, run) u bits) as [[[e [preds1 run1]] bits1]|] eqn:E; [|discriminate].
    destruct (decode_units sc (preds1, run1) us bits1) as [[[es1 st1] pad1]|] eqn:E1; [|discriminate].
    injection H as <- <- <-.
    unfold decode_unit in E. destruct u as [[ci' y] x]. cbn [fst] in Hc. subst ci'. rewrite Hss in E.
    change (0 =? 0) with true in E. cbv iota in E. rewrite Hdc, Hp in E.
    destruct (decode_dc tb p bits) as [[dc b1]|] eqn:Ed; [|discriminate].
    assert (Hk : In (category (dc - p)) (map snd tb)).
    { unfold decode_dc in Ed. destruct (decode_symbol tb bits) as [[v r]|] eqn:Es; [|discriminate].
      destruct ((0 <=? v) && (v <=? 11)) eqn:Ev; [|discriminate].
      destruct (receive_extend v r) as [[diff r2]|] eqn:Er; [|discriminate]. injection Ed as <- _.
      replace (p + diff - p) with diff by lia. apply receive_category in Er; [|lia]. rewrite Er.
      now apply decode_symbol_snd in Es. }
    assert (He : en_pos e = (ci, y, x) /\ en_ss e = 0 /\ (exists vs, en_vals e = dc :: vs) /\ preds1 = set_nth preds ci dc).
    { destruct (sc_se sc =? 0).
      - injection E as <- <- _ _. repeat split. now exists [].
      - destruct (sc_ac sc ci); [|discriminate]. destruct (decode_ac _ _ _ _ _ _) as [[[vs ?] ?]|]; [|discriminate].
        injection E as <- <- _ _. repeat split. now exists vs. }
    destruct He as (H1 & H2 & (vs & H3) & ->).
    destruct (IH _ _ _ _ _ _ dc Hu (nth_set_nth preds ci dc (nth_error_lt _ _ _ Hp)) E1) as (J1 & J2 & J3).
    cbn [map]. rewrite H1, J1. split; [reflexivity|]. split.
    + constructor; [|exact J2]. split; [exact H2|]. rewrite H3. discriminate.
    + cbn [dc_categories]. assert (Edc : dc_of e = dc) by (unfold dc_of; rewrite H3; reflexivity). rewrite Edc.
      constructor; assumption.
Qed.

(** ** What a successful decoding implies *)
Lemma in_table_of hh k : In k (map snd (table_of hh)) -> In k (snd hh).
Proof.
  unfold table_of. destruct (build_table (fst hh) (snd hh)) as [tb|] eqn:E; [|intros []]. unfold build_table in E.
  destruct ((length (fst hh) =? 16)%nat && distinct (snd hh)); [|discriminate].
  destruct (canonical_codes 1 0 (fst hh)) as [l|]; [|discriminate]. destruct (length l =? length (snd hh))%nat; [|discriminate].
  injection E as <-. intros H. apply in_map_iff in H as ([a b] & <- & H). cbn [snd]. now apply in_combine_r in H.
Qed.

Lemma single_units f ci c : forall us, In us (single_mcus f ci c) -> exists y x, us = [(ci, y, x)] /\
  0 <= y < blocks_high f c /\ 0 <= x < blocks_wide f c.
Proof.
  intros us H. unfold single_mcus in H. apply in_flat_map in H as (y & Hy & H). apply in_map_iff in H as (x & <- & Hx).
  exists y, x. split; [reflexivity|]. unfold upto in Hy, Hx. apply in_map_iff in Hy as (a & <- & Ha). apply in_map_iff in Hx as (b & <- & Hb).
  apply in_seq in Ha, Hb. lia.
Qed.
Lemma group_incl {A} k : forall fuel (l : list A) g, In g (group fuel k l) -> incl g l.
Proof.
  induction fuel as [|fuel IH]; intros l g H; [destruct H|]. cbn [group] in H. destruct l as [|a l]; [destruct H|].
  destruct H as [<-|H].
  - intros x Hx. rewrite <- (firstn_skipn k (a :: l)). apply in_or_app. now left.
  - intros x Hx. rewrite <- (firstn_skipn k (a :: l)). apply in_or_app. right. exact (IH _ _ H x Hx).
Qed.
Lemma intervals_in {A} ri (l : list A) g : In g (intervals ri l) -> incl g l.
Proof. unfold intervals. destruct (ri =? 0); [intros [<-|[]]; apply incl_refl|apply group_incl]. Qed.

Lemma some_inj {A} (a b : A) : Some a = Some b -> a = b.
Proof. congruence. Qed.
Lemma map_same {A B} (f g : A -> B) l : map f l = map g l -> forall x, In x l -> f x = g x.
Proof.
  induction l as [|a l IH]; intros E x H; [destruct H|]. cbn [map] in E.
  assert (E1 : f a = g a) by congruence. assert (E2 : map f l = map g l) by congruence.
  destruct H as [<-|H]; [exact E1|now apply IH].
Qed.

Section Decoded.
  Variable T : transform.
  Variable t : tables.
  Variable s : settings.
  Variable color : jcolor.
  Variable pl : planes.
  Variable w h : Z.
  Variable Hw : 1 <= w <= 65535.
  Variable Hh : 1 <= h <= 65535.
  Variable Ht : storable_tables t.
  Variable Ha : apps_ok (apps_for s color).
  Variable Hri : 0 <= s_restart s < 65536.
  Let f := frame_for s color w h.
  Let cf := coefficients_of T s color pl w h.
  Let cs := comps_of (s_sampling s) color.
  Let bytes := jpeg_file_with T t s color pl w h.

  Lemma decode_file_eq : decode bytes
    = guard (forallb is_byte bytes && quant_ok s);
      do st <- steps (head_state t s color w h [] []) (scan_parts T t s color pl w h);
      do f <- st_frame st;
      Some {| j_frame := f; j_app := st_app st; j_qt := st_qt st; j_ri := st_ri st; j_log := st_log st; j_scans := st_scans st |}.
  Proof.
    unfold bytes, jpeg_file_with. fold f.
    change (fun (ci : nat) (y x k : Z) => match nth_error (fr_comps f) ci with
      | Some c => expected T s color pl w h ci c y x k | None => 0 end) with cf.
    rewrite decode_parts by now apply parts_ok.
    destruct (forallb is_byte (render_file (file_parts t s f color cf))); [|reflexivity].
    unfold f, cf. rewrite steps_file by assumption. cbn [andb]. destruct (quant_ok s); reflexivity.
  Qed.

  Lemma keeps_all : forall ps st st', (forall p, In p ps -> exists a b, p = Scan a b) -> steps st ps = Some st' ->
    st_frame st' = st_frame st /\ st_qt st' = st_qt st.
  Proof.
    induction ps as [|p ps IH]; intros st st' Hp H; [injection H as <-; auto|]. cbn [steps] in H.
    destruct (Hp p ltac:(now left)) as (a & b & ->). cbn [step] in H.
    destruct (step_scan st a b) as [st1|] eqn:E; [|discriminate].
    destruct (step_scan_keeps _ _ _ _ E) as (es & si & ->).
    destruct (IH _ _ (fun p Hi => Hp p (or_intror Hi)) H) as [-> ->]. auto.
  Qed.

  Lemma decoded_qt j : decode bytes = Some j -> quant_ok s = true /\ j_frame j = f /\ j_qt j = [Some (stored s 0); Some (stored s 1); None; None].
  Proof.
    rewrite decode_file_eq. destruct (forallb is_byte bytes); [|discriminate]. destruct (quant_ok s); [|discriminate]. cbn [andb].
    destruct (steps (head_state t s color w h [] []) (scan_parts T t s color pl w h)) as [st|] eqn:E; [|discriminate].
    apply keeps_all in E as [E1 E2].
    2:{ intros p Hp. apply in_map_iff in Hp as (si & <- & _). eauto. }
    rewrite E1. cbn [head_state st_frame]. intros [= <-]. cbn [j_frame j_qt]. rewrite E2. auto.
  Qed.

  Definition good_quantizers : Prop :=
    forall c i, In c (fr_comps f) -> 0 <= i < 64 -> quantizer s (co_tq c) i <= 255.

  Lemma zigzag_all : forall i, 0 <= i < 64 -> exists v u, In (v, u) zigzag /\ Z.of_nat (8 * v + u) = i.
  Proof.
    intros i Hi.
    assert (G : forallb (fun i => existsb (fun '(v, u) => Z.of_nat (8 * v + u) =? i) zigzag) (upto 64) = true) by (vm_compute; reflexivity).
    rewrite forallb_forall in G. assert (Hin : In i (upto 64)).
    { unfold upto. apply in_map_iff. exists (Z.to_nat i). split; [lia|]. apply in_seq. lia. }
    apply G in Hin. apply existsb_exists in Hin as ([v u] & H1 & H2). exists v, u. split; [exact H1|lia].
  Qed.

  Lemma decoded_quantizers j : decode bytes = Some j -> decoded_with T s color w h pl j -> good_quantizers.
  Proof.
    intros D A c i Hc Hi. destruct (decoded_qt j D) as (_ & Ef & Eq).
    apply In_nth_error in Hc as (ci & Hc). pose proof (da_quant _ _ _ _ _ _ _ A ci c Hc) as Hq.
    unfold quant in Hq. rewrite Ef, Hc, Eq in Hq.
    assert (E : Some (stored s (co_tq c)) = Some (map (fun '(v, u) => quantizer s (co_tq c) (Z.of_nat (8 * v + u))) zigzag)).
    { rewrite <- Hq. destruct (comp_tq T s color pl w h Hw Hh Ha Hri ci c Hc) as [->|[-> _]]; reflexivity. }
    apply some_inj in E. unfold stored in E. destruct (zigzag_all i Hi) as (v & u & Hin & <-).
    pose proof (map_same _ _ zigzag E (v, u) Hin) as E1. cbv beta iota in E1.
    set (q := quantizer s (co_tq c) (Z.of_nat (8 * v + u))) in *. clearbody q. lia.
  Qed.

  Variable Hsingle : singles s color (scan_script s color).

  Lemma decoded_singles j : decode bytes = Some j ->
    forall si, In si (scan_script s color) -> spectral_ok (fr_progressive f) 1 (si_ss si) (si_se si) = true /\
      exists ci c sc es, si_comps si = [ci] /\ nth_error cs ci = Some c /\
        read_intervals sc (length cs) (intervals (s_restart s) (mcus_of f si)) (scan_data t f (s_restart s) cf si) = Some es /\
        incl es (j_log j) /\ sc_ss sc = si_ss si /\ sc_dc sc ci = Some (table_of (tb_dc t (co_tq c))).
  Proof.
    rewrite decode_file_eq. destruct (forallb is_byte bytes && quant_ok s); [|discriminate].
    destruct (steps (head_state t s color w h [] []) (scan_parts T t s color pl w h)) as [st|] eqn:E; [|discriminate].
    unfold scan_parts in E. apply (steps_singles T t s color pl w h Hw Hh Ha Hri) in E; [|assumption].
    destruct E as (log' & -> & _ & Hall). cbn [head_state st_frame st_log]. intros [= <-]. cbn [j_log]. exact Hall.
  Qed.

  Lemma decoded_categories j : decode bytes = Some j -> decoded_with T s color w h pl j ->
    (forall ci, (ci < length cs)%nat -> exists si, In si (scan_script s color) /\ si_comps si = [ci] /\ si_ss si = 0) ->
    forall ci c k, nth_error (fr_comps f) ci = Some c -> In k (written_categories cf f (s_restart s) ci) ->
      In k (snd (tb_dc t (co_tq c))).
  Proof.
    intros D A Hdc ci c k Hc Hk. apply in_table_of.
    destruct (Hdc ci (nth_error_lt _ _ _ Hc)) as (si & Hsi & Eci & Ess).
    destruct (decoded_singles j D si Hsi) as (_ & ci' & c' & sc & es & Eci' & Hc' & Hr & Hl & Hss & Hd).
    assert (ci' = ci) as -> by congruence. assert (c' = c) as -> by (change (fr_comps f) with cs in Hc; congruence). clear Eci' Hc'.
    unfold written_categories in Hk. apply in_flat_map in Hk as (g & Hg & Hk).
    assert (Em : mcus_of f (component_scan ci) = single_mcus f ci c).
    { unfold mcus_of. cbn [component_scan si_comps flat_map]. rewrite Hc. reflexivity. }
    assert (Em' : mcus_of f si = single_mcus f ci c).
    { unfold mcus_of. rewrite Eci. cbn [flat_map]. rewrite Hc. reflexivity. }
    rewrite Em in Hg. rewrite Em' in Hr.
    destruct (read_intervals_inv sc _ _ _ _ Hr g Hg) as (d & es1 & Hr1 & Hi1).
    unfold read_interval in Hr1. destruct (decode_units sc (repeat 0 (length cs), 0) (concat g) (bits_of_bytes d)) as [[[es2 st] pad]|] eqn:E; [|discriminate].
    destruct ((snd st =? 0) && (length pad <? 8)%nat && forallb (fun b => b) pad); [|discriminate]. injection Hr1 as ->.
    assert (Hpos : forall u, In u (concat g) -> exists y x, u = (ci, y, x) /\ 0 <= y < blocks_high f c /\ 0 <= x < blocks_wide f c).
    { intros u Hu. apply in_concat in Hu as (us & Hus & Hu). apply (intervals_in _ _ _ Hg) in Hus.
      destruct (single_units f ci c us Hus) as (y & x & -> & Hyx). destruct Hu as [<-|[]]. eauto. }
    edestruct (decode_units_dc sc ci (table_of (tb_dc t (co_tq c))) ltac:(congruence) Hd (concat g)) as (J1 & J2 & J3); [| |exact E|].
    - apply Forall_forall. intros u Hu. destruct (Hpos u Hu) as (y & x & -> & _). reflexivity.
    - apply nth_error_repeat. exact (nth_error_lt _ _ _ Hc).
    - assert (Ev : map dc_of es1 = dc_values cf (concat g)).
      { unfold dc_values. rewrite <- J1, map_map. apply map_ext_in. intros e He.
        assert (Hu : In (en_pos e) (concat g)) by (rewrite <- J1; now apply in_map).
        destruct (Hpos _ Hu) as (y & x & Ep & Hy & Hx). rewrite Ep.
        rewrite Forall_forall in J2. destruct (J2 e He) as [He0 Hev].
        pose proof (da_coef _ _ _ _ _ _ _ A ci c y x 0 Hc) as Hcoef. rewrite (da_frame _ _ _ _ _ _ _ A) in Hcoef.
        specialize (Hcoef Hy Hx ltac:(lia)). unfold coef in Hcoef.
        assert (Hin : In e (filter (fun e => same_pos (en_pos e) (ci, y, x) && (en_ss e <=? 0) && (0 <? en_ss e + Z.of_nat (length (en_vals e)))) (j_log j))).
        { apply filter_In. split; [apply Hl, Hi1, He|]. rewrite Ep, He0. unfold same_pos. rewrite Nat.eqb_refl, !Z.eqb_refl.
          destruct (en_vals e); [contradiction|]. cbn [length andb]. lia. }
        destruct (filter _ (j_log j)) as [|e1 [|]]; try discriminate Hcoef. destruct Hin as [->|[]].
        rewrite He0 in Hcoef. change (Z.to_nat (0 - 0)) with 0%nat in Hcoef. unfold dc_of.
        destruct (en_vals e) as [|v vs]; [contradiction|]. cbn [nth_error nth] in *.
        unfold cf, coefficients_of. fold f. rewrite Hc. congruence. }
      rewrite Ev in J3. rewrite Forall_forall in J3. now apply J3.
  Qed.
End Decoded.

(** ** The second quantization table of a greyscale image does not matter *)
Definition with_qt (q : list (option (list Z))) (st : state) : state :=
  {| st_frame := st_frame st; st_qt := q; st_dc := st_dc st; st_ac := st_ac st;
     st_ri := st_ri st; st_app := st_app st; st_log := st_log st; st_scans := st_scans st |}.
Lemma step_scan_qt q st hd ds : (forall i, is_some (slot (st_qt st) i) = is_some (slot q i)) ->
  step_scan (with_qt q st) hd ds = option_map (with_qt q) (step_scan st hd ds).
Proof.
  intros Hq. unfold step_scan. cbn [with_qt st_frame st_qt st_dc st_ac st_ri st_app st_log st_scans].
  destruct (st_frame st) as [f0|]; [|reflexivity]. destruct hd as [|ns p']; [reflexivity|].
  destruct ((1 <=? ns) && (ns <=? 4)); [|reflexivity].
  destruct (parse_selectors (Z.to_nat ns) 0 (fr_comps f0) p') as [[sel p'']|]; [|reflexivity].
  destruct p'' as [|ss [|se [|ahal [|? ?]]]]; try reflexivity. cbv zeta.
  assert (E : forall l : list (nat * comp), forallb (fun '(_, c) => is_some (slot q (co_tq c))) l
            = forallb (fun '(_, c) => is_some (slot (st_qt st) (co_tq c))) l).
  { induction l as [|[a c] l IH]; [reflexivity|]. cbn [forallb]. rewrite IH, Hq. reflexivity. }
  rewrite E.
  repeat match goal with |- context [if ?b then _ else None] => destruct b; [|reflexivity] end.
  match goal with |- context [read_intervals ?sc ?n ?ints ds] => destruct (read_intervals sc n ints ds) as [es|]; reflexivity end.
Qed.
Lemma steps_qt q : forall ps st, (forall p, In p ps -> exists a b, p = Scan a b) ->
  (forall i, is_some (slot (st_qt st) i) = is_some (slot q i)) ->
  steps (with_qt q st) ps = option_map (with_qt q) (steps st ps).
Proof.
  induction ps as [|p ps IH]; intros st Hp Hq; [reflexivity|]. cbn [steps].
  destruct (Hp p ltac:(now left)) as (a & b & ->). cbn [step]. rewrite step_scan_qt by exact Hq.
  destruct (step_scan st a b) as [st1|] eqn:E; [|reflexivity]. cbn [option_map].
  destruct (step_scan_keeps _ _ _ _ E) as (es & si & ->). apply IH; [intros p Hi; apply Hp; now right|exact Hq].
Qed.

Definition set_chroma (s : settings) (q : MQuant.qtype) : settings :=
  {| s_quality := s_quality s; s_density := s_density s; s_sampling := s_sampling s; s_luma := s_luma s; s_chroma := q;
     s_scans := s_scans s; s_restart := s_restart s; s_optimize := s_optimize s; s_segments := s_segments s |}.

Lemma luma_quantizer s q color i ci c : color = MImage.JLuma -> nth_error (comps_of (s_sampling s) color) ci = Some c ->
  quantizer (set_chroma s q) (co_tq c) i = quantizer s (co_tq c) i.
Proof.
  intros -> Hc. assert (E : co_tq c = 0).
  { unfold comps_of in Hc. destruct (factors (s_sampling s)). destruct ci as [|[|]]; cbn [nth_error] in Hc; try discriminate Hc.
    injection Hc as <-. reflexivity. }
  rewrite E. reflexivity.
Qed.

Lemma and5 a b c c' d e : c' = true -> a && ((b && (c && d)) && e) = true -> a && ((b && (c' && d)) && e) = true.
Proof. intros ->. destruct a, b, c, d, e; auto. Qed.

Section Grey.
  Variable T : transform.
  Variable t : tables.
  Variable s : settings.
  Variable q : MQuant.qtype.
  Variable pl : planes.
  Variable w h : Z.
  Variable Hw : 1 <= w <= 65535.
  Variable Hh : 1 <= h <= 65535.
  Variable Ht : storable_tables t.
  Notation color := MImage.JLuma.
  Variable Ha : apps_ok (apps_for s color).
  Variable Hri : 0 <= s_restart s < 65536.
  Let s' := set_chroma s q.

  Lemma grey_cf ci y x k : coefficients_of T s' color pl w h ci y x k = coefficients_of T s color pl w h ci y x k.
  Proof.
    unfold coefficients_of. cbn [s' set_chroma s_sampling frame_for fr_comps].
    destruct (nth_error (comps_of (s_sampling s) color) ci) as [c|] eqn:E; [|reflexivity].
    unfold expected. destruct (zigzag_pos k) as [v u]. unfold s'. now rewrite (luma_quantizer s q color _ ci c eq_refl E).
  Qed.
  Lemma encode_units_ext dc ac ss se cf cf' : (forall ci y x k, cf ci y x k = cf' ci y x k) -> forall us p p',
    (forall i, p i = p' i) -> encode_units dc ac ss se cf p us = encode_units dc ac ss se cf' p' us.
  Proof.
    intros E. induction us as [|[[ci y] x] us IH]; intros p p' Ep; [reflexivity|]. cbn [encode_units].
    rewrite E, Ep. f_equal. f_equal.
    - f_equal. apply map_ext. intros k. apply E.
    - apply IH. intros i. rewrite Ep. reflexivity.
  Qed.
  Lemma grey_scans : scan_parts T t s' color pl w h = scan_parts T t s color pl w h.
  Proof.
    unfold scan_parts. change (scan_script s' color) with (scan_script s color).
    apply map_ext. intros si. change (frame_for s' color w h) with (frame_for s color w h). f_equal.
    unfold scan_data. change (s_restart s') with (s_restart s). apply map_ext. intros m. f_equal.
    apply encode_units_ext; [exact grey_cf|reflexivity].
  Qed.

  Lemma grey_bytes : forallb is_byte (jpeg_file_with T t s' color pl w h) = true ->
    forallb is_byte (jpeg_file_with T t s color pl w h) = true.
  Proof.
    assert (G : forall s0, jpeg_file_with T t s0 color pl w h
      = [255; 216] ++ (flat_map render (map (fun '(nr, data) => Segment (224 + nr) data) (apps_for s0 color) ++ [sof (frame_for s0 color w h); dqt s0 0])
          ++ render (dqt s0 1) ++ flat_map render ([dht 0 0 (tb_dc t 0); dht 1 0 (tb_ac t 0)] ++
            (if (3 <=? length (fr_comps (frame_for s0 color w h)))%nat then [dht 0 1 (tb_dc t 1); dht 1 1 (tb_ac t 1)] else []) ++
            dri (s_restart s0) ++ scan_parts T t s0 color pl w h)) ++ [255; 217]).
    { intros s0. unfold jpeg_file_with, render_file, file_parts. rewrite !flat_map_app. cbn [flat_map]. rewrite !app_nil_r, <- !app_assoc.
      reflexivity. }
    rewrite !G. rewrite !forallb_app. rewrite grey_scans.
    change (apps_for s' color) with (apps_for s color). change (frame_for s' color w h) with (frame_for s color w h).
    change (s_restart s') with (s_restart s). change (dqt s' 0) with (dqt s 0).
    apply and5.
    apply forallb_forall. intros x Hx. unfold dqt, render, length_field in Hx. cbn [length app] in Hx. rewrite map_length in Hx.
    change (length zigzag) with 64%nat in Hx.
    assert (Hx' : x = 255 \/ x = 219 \/ x = 0 \/ x = 67 \/ x = 1 \/ In x (stored s 1)).
    { destruct Hx as [<-|[<-|[<-|[<-|[<-|Hx]]]]]; auto 10. }
    unfold is_byte. destruct Hx' as [->|[->|[->|[->|[->|Hx']]]]]; try reflexivity.
    unfold stored in Hx'. apply in_map_iff in Hx' as ([v u] & <- & _).
    pose proof (Z.mod_pos_bound (quantizer s 1 (Z.of_nat (8 * v + u))) 256 ltac:(lia)). lia.
  Qed.

  Lemma grey_transfer j' : quant_ok s = true -> decode (jpeg_file_with T t s' color pl w h) = Some j' ->
    decoded_with T s' color w h pl j' ->
    exists j, decode (jpeg_file_with T t s color pl w h) = Some j /\ decoded_with T s color w h pl j.
  Proof.
    intros Hq D A. pose proof D as D0.
    rewrite (decode_file_eq T t s' color pl w h Hw Hh Ht Ha Hri) in D.
    destruct (forallb is_byte (jpeg_file_with T t s' color pl w h)) eqn:Eb; [|discriminate].
    destruct (quant_ok s') eqn:Eq; [|discriminate]. cbn [andb] in D.
    pose proof (decode_file_eq T t s color pl w h Hw Hh Ht Ha Hri) as D1.
    rewrite (grey_bytes Eb), Hq in D1. cbn [andb] in D1.
    set (Q := [Some (stored s 0); Some (stored s 1); None; None]).
    change (head_state t s color w h [] []) with (with_qt Q (head_state t s' color w h [] [])) in D1.
    rewrite grey_scans in D. rewrite steps_qt in D1.
    - destruct (steps (head_state t s' color w h [] []) (scan_parts T t s color pl w h)) as [st|] eqn:Es; [|discriminate].
      cbn [option_map with_qt st_frame st_app st_qt st_ri st_log st_scans] in D1.
      apply keeps_all in Es as [Ef _]. 2:{ intros p Hp. apply in_map_iff in Hp as (si & <- & _). eauto. }
      cbn [head_state st_frame] in Ef. rewrite Ef in D, D1. apply some_inj in D.
      eexists. split; [exact D1|]. rewrite <- D in A. destruct A as [A1 A2 A3 A4 A5 A6].
      cbn [j_frame j_app j_ri j_scans] in A1, A2, A3, A4. cbn [j_frame] in A6.
      constructor; cbn [j_frame j_app j_ri j_scans]; try assumption.
      + intros ci c Hc. specialize (A5 ci c Hc). unfold quant in *. cbn [j_frame j_qt] in *.
        change (fr_comps (frame_for s' color w h)) with (comps_of (s_sampling s) color) in A5.
        change (nth_error (comps_of (s_sampling s) color) ci = Some c) in Hc. rewrite Hc in A5. change (fr_comps (frame_for s' color w h)) with (comps_of (s_sampling s) color). rewrite Hc.
        assert (E0 : co_tq c = 0).
        { clear - Hc. unfold comps_of in Hc. destruct (factors (s_sampling s)). destruct ci as [|[|]]; cbn [nth_error] in Hc; try discriminate Hc.
          injection Hc as <-. reflexivity. }
        rewrite E0 in A5. rewrite E0. destruct (decoded_qt T t s' color pl w h Hw Hh Ht Ha Hri j' D0) as (_ & _ & Eqt).
        rewrite <- D in Eqt. cbn [j_qt] in Eqt. rewrite Eqt in A5. exact A5.
      + intros ci c y x k Hc Hy Hx Hk. specialize (A6 ci c y x k Hc Hy Hx Hk).
        unfold coef in *. cbn [j_log] in *. rewrite A6. f_equal.
        unfold expected. destruct (zigzag_pos k) as [v u]. unfold s'. now rewrite (luma_quantizer s q color _ ci c eq_refl Hc).
    - intros p Hp. apply in_map_iff in Hp as (si & <- & _). eauto.
    - intros i. cbn [head_state st_qt]. unfold Q, slot. destruct (Z.to_nat i) as [|[|[|[|n]]]]; try reflexivity; destruct n; reflexivity.
  Qed.
End Grey.
