(** Decoding the first scans of a file (C48). *)
From Coq Require Import ZArith List Bool Lia ZifyBool ZifyNat.
From Verif Require Import T81 SFile SEncode SSize SRestart SPreview PBits PParts PParse PBytes PSegments PDecide Spec PTop.
Import ListNotations.
Open Scope Z_scope.
Local Ltac Zify.zify_post_hook ::= Z.div_mod_to_equations.

(** ** What an entry tells about its scan *)
Definition of_scan (e : entry) (si : scan_info) : Prop :=
  In (fst (fst (en_pos e))) (si_comps si) /\ en_ss e = si_ss si /\ Z.of_nat (length (en_vals e)) = si_se si - si_ss si + 1.

Lemma decode_ac_length prog t se : forall fuel k bits vs run rest, k <= se + 1 ->
  decode_ac prog t fuel k se bits = Some (vs, run, rest) -> Z.of_nat (length vs) = se - k + 1.
Proof.
  induction fuel as [|fuel IH]; intros k bits vs run rest Hk H; [discriminate|]. cbn [decode_ac] in H.
  destruct (se <? k) eqn:E0. { injection H as <- _ _. cbn [length]. lia. }
  destruct (decode_symbol t bits) as [[rs b1]|]; [|discriminate].
  destruct ((0 <=? rs) && (rs <? 256)) eqn:Er; [|discriminate]. cbv zeta in H.
  destruct (rs mod 16 =? 0).
  - destruct (rs / 16 =? 15).
    + destruct (k + 16 <=? se) eqn:E1; [|discriminate].
      destruct (decode_ac prog t fuel (k + 16) se b1) as [[[vs1 run1] b2]|] eqn:E2; [|discriminate].
      injection H as <- _ _. apply IH in E2; [|lia]. cbn [app length repeat]. lia.
    + destruct (rs / 16 =? 0).
      * injection H as <- _ _. rewrite repeat_length. lia.
      * destruct prog; [|discriminate]. destruct (take _ b1) as [[e1 b2]|]; [|discriminate].
        injection H as <- _ _. rewrite repeat_length. lia.
  - destruct ((rs mod 16 <=? 10) && (k + rs / 16 <=? se)) eqn:E1; [|discriminate].
    destruct (receive_extend (rs mod 16) b1) as [[v b2]|]; [|discriminate].
    destruct (decode_ac prog t fuel (k + rs / 16 + 1) se b2) as [[[vs1 run1] b3]|] eqn:E2; [|discriminate].
    injection H as <- _ _. apply IH in E2; [|lia]. rewrite app_length, repeat_length. cbn [length]. lia.
Qed.

Lemma decode_unit_shape sc st u bits e st' rest : 0 <= sc_ss sc <= sc_se sc -> decode_unit sc st u bits = Some (e, st', rest) ->
  en_pos e = u /\ en_ss e = sc_ss sc /\ Z.of_nat (length (en_vals e)) = sc_se sc - sc_ss sc + 1.
Proof.
  intros Hs. unfold decode_unit. destruct u as [[ci y] x], st as [preds run].
  destruct (sc_ss sc =? 0) eqn:E0.
  - destruct (sc_dc sc ci) as [t|]; [|discriminate]. destruct (nth_error preds ci) as [p|]; [|discriminate].
    destruct (decode_dc t p bits) as [[dc b1]|]; [|discriminate].
    destruct (sc_se sc =? 0) eqn:E1.
    + intros [= <- <- <-]. cbn [en_pos en_ss en_vals length]. split; [reflexivity|lia].
    + destruct (sc_ac sc ci) as [ta|]; [|discriminate].
      destruct (decode_ac (sc_progressive sc) ta 64 1 (sc_se sc) b1) as [[[vs r] b2]|] eqn:E2; [|discriminate].
      intros [= <- <- <-]. apply decode_ac_length in E2; [|lia]. cbn [en_pos en_ss en_vals length]. split; [reflexivity|lia].
  - destruct (0 <? run).
    + intros [= <- <- <-]. cbn [en_pos en_ss en_vals]. rewrite repeat_length. split; [reflexivity|lia].
    + destruct (sc_ac sc ci) as [ta|]; [|discriminate].
      destruct (decode_ac (sc_progressive sc) ta 64 (sc_ss sc) (sc_se sc) bits) as [[[vs r] b2]|] eqn:E2; [|discriminate].
      intros [= <- <- <-]. apply decode_ac_length in E2; [|lia]. cbn [en_pos en_ss en_vals]. split; [reflexivity|lia].
Qed.
Lemma decode_units_shape sc : 0 <= sc_ss sc <= sc_se sc -> forall us st bits es st' rest,
  decode_units sc st us bits = Some (es, st', rest) ->
  Forall (fun e => In (en_pos e) us /\ en_ss e = sc_ss sc /\ Z.of_nat (length (en_vals e)) = sc_se sc - sc_ss sc + 1) es.
Proof.
  intros Hs. induction us as [|u us IH]; intros st bits es st' rest H.
  - injection H as <- _ _. constructor.
  - cbn [decode_units] in H. destruct (decode_unit sc st u bits) as [[[e st1] b1]|] eqn:E; [|discriminate].
    destruct (decode_units sc st1 us b1) as [[[es1 st2] b2]|] eqn:E1; [|discriminate]. injection H as <- _ _.
    apply decode_unit_shape in E as (A & B & C); [|exact Hs]. constructor.
    + split; [left; symmetry; exact A|]. split; [exact B|exact C].
    + apply IH in E1. eapply Forall_impl; [|exact E1]. intros e0 (A0 & B0). split; [now right|exact B0].
Qed.
Lemma read_intervals_shape sc n : 0 <= sc_ss sc <= sc_se sc -> forall ints ds es, read_intervals sc n ints ds = Some es ->
  Forall (fun e => In (en_pos e) (concat (concat ints)) /\ en_ss e = sc_ss sc /\ Z.of_nat (length (en_vals e)) = sc_se sc - sc_ss sc + 1) es.
Proof.
  intros Hs.
  assert (O : forall i d es, read_interval sc n i d = Some es ->
    Forall (fun e => In (en_pos e) (concat i) /\ en_ss e = sc_ss sc /\ Z.of_nat (length (en_vals e)) = sc_se sc - sc_ss sc + 1) es).
  { intros i d es H. unfold read_interval in H. destruct (decode_units _ _ _ _) as [[[es1 st] pad]|] eqn:E; [|discriminate].
    destruct (_ && _ && _); [|discriminate]. injection H as <-. eapply decode_units_shape; eassumption. }
  induction ints as [|i ints IH]; intros ds es H; [discriminate|].
  destruct ds as [|d ds]; [destruct ints; discriminate H|].
  assert (G : (exists es1, read_interval sc n i d = Some es1 /\ es = es1) \/
              (exists es1 es2, read_interval sc n i d = Some es1 /\ read_intervals sc n ints ds = Some es2 /\ es = es1 ++ es2)).
  { destruct ints as [|i2 ints], ds as [|d2 ds].
    - left. exists es. split; [exact H|reflexivity].
    - cbn [read_intervals] in H. destruct (read_interval sc n i d); discriminate H.
    - right. change (read_intervals sc n (i :: i2 :: ints) [d]) with
        (do es <- read_interval sc n i d; do es' <- read_intervals sc n (i2 :: ints) []; Some (es ++ es')) in H.
      destruct (read_interval sc n i d) as [e1|]; [|discriminate].
      destruct (read_intervals sc n (i2 :: ints) []) as [e2|]; [|discriminate]. exists e1, e2. repeat split. congruence.
    - right. change (read_intervals sc n (i :: i2 :: ints) (d :: d2 :: ds)) with
        (do es <- read_interval sc n i d; do es' <- read_intervals sc n (i2 :: ints) (d2 :: ds); Some (es ++ es')) in H.
      destruct (read_interval sc n i d) as [e1|]; [|discriminate].
      destruct (read_intervals sc n (i2 :: ints) (d2 :: ds)) as [e2|]; [|discriminate]. exists e1, e2. repeat split. congruence. }
  cbn [concat]. rewrite concat_app.
  destruct G as [(e1 & H1 & ->)|(e1 & e2 & H1 & H2 & ->)].
  - apply O in H1. eapply Forall_impl; [|exact H1]. intros e (A & B). split; [apply in_or_app; now left|exact B].
  - apply O in H1. apply IH in H2. apply Forall_app. split.
    + eapply Forall_impl; [|exact H1]. intros e (A & B). split; [apply in_or_app; now left|exact B].
    + eapply Forall_impl; [|exact H2]. intros e (A & B). split; [apply in_or_app; now right|exact B].
Qed.

Lemma scan_mcus_comp f cs us u : In us (scan_mcus f cs) -> In u us -> In (fst (fst u)) (map fst cs).
Proof.
  assert (I : In us (interleaved_mcus f cs) -> In u us -> In (fst (fst u)) (map fst cs)).
  { intros H Hu. unfold interleaved_mcus in H. apply in_flat_map in H as (my & _ & H). apply in_map_iff in H as (mx & <- & _).
    apply in_flat_map in Hu as ([ci c] & Hc & Hu). apply in_flat_map in Hu as (y & _ & Hu). apply in_map_iff in Hu as (x & <- & _).
    cbn [fst]. apply in_map_iff. exists (ci, c). split; [reflexivity|exact Hc]. }
  unfold scan_mcus. destruct cs as [|[ci c] [|c2 cs]]; try exact I.
  intros H Hu. destruct (single_units f ci c us H) as (y & x & -> & _). destruct Hu as [<-|[]]. now left.
Qed.

Lemma spectral_range p n ss se : spectral_ok p n ss se = true -> 0 <= ss <= se /\ se <= 63.
Proof. unfold spectral_ok. destruct p; [destruct (ss =? 0) eqn:E|]; lia. Qed.

Lemma step_scan_log st hd ds st' : step_scan st hd ds = Some st' ->
  exists es si, st' = {| st_frame := st_frame st; st_qt := st_qt st; st_dc := st_dc st; st_ac := st_ac st;
      st_ri := st_ri st; st_app := st_app st; st_log := st_log st ++ es; st_scans := st_scans st ++ [si] |} /\
    Forall (fun e => of_scan e si) es.
Proof.
  unfold step_scan. destruct (st_frame st) as [f0|]; [|discriminate].
  destruct hd as [|ns p']; [discriminate|].
  destruct ((1 <=? ns) && (ns <=? 4)); [|discriminate].
  destruct (parse_selectors (Z.to_nat ns) 0 (fr_comps f0) p') as [[sel p'']|]; [|discriminate].
  destruct p'' as [|ss [|se [|ahal [|? ?]]]]; try discriminate. cbv zeta.
  match goal with |- (if ?b then _ else _) = _ -> _ => destruct b eqn:Esp; [|discriminate] end.
  apply andb_prop in Esp as [_ Esp]. apply spectral_range in Esp as [Hs _].
  repeat match goal with |- (if ?b then _ else _) = _ -> _ => destruct b; [|discriminate] end.
  set (cs := map (fun '(ci, c, _, _) => (ci, c)) sel).
  match goal with |- context [read_intervals ?sc ?n ?ints ds] => destruct (read_intervals sc n ints ds) as [es|] eqn:E; [|discriminate] end.
  intros [= <-]. do 2 eexists. split; [reflexivity|].
  apply read_intervals_shape in E; [|exact Hs]. eapply Forall_impl; [|exact E]. cbn [sc_ss sc_se].
  intros e (A & B & C). unfold of_scan. cbn [si_comps si_ss si_se]. split; [|split; [exact B|exact C]].
  apply in_concat in A as (us & Hus & Hin). apply in_concat in Hus as (i & Hi & Hus).
  eapply scan_mcus_comp; [|exact Hin]. eapply intervals_in; eassumption.
Qed.

Definition is_scan (p : part) : Prop := match p with Scan _ _ => True | _ => False end.
Lemma steps_scans : forall ps st st', Forall is_scan ps -> steps st ps = Some st' ->
  exists es sis, st' = {| st_frame := st_frame st; st_qt := st_qt st; st_dc := st_dc st; st_ac := st_ac st;
      st_ri := st_ri st; st_app := st_app st; st_log := st_log st ++ es; st_scans := st_scans st ++ sis |} /\
    length sis = length ps /\ Forall (fun e => Exists (of_scan e) sis) es.
Proof.
  induction ps as [|p ps IH]; intros st st' Hp H.
  - injection H as <-. exists [], []. rewrite !app_nil_r. destruct st. repeat split. constructor.
  - apply Forall_cons_iff in Hp as [Hp Hps]. destruct p as [|hd ds]; [destruct Hp|]. cbn [steps step] in H.
    destruct (step_scan st hd ds) as [st1|] eqn:E; [|discriminate].
    apply step_scan_log in E as (es1 & si & -> & H1). apply IH in H as (es2 & sis & -> & L & H2); [|exact Hps].
    cbn [st_frame st_qt st_dc st_ac st_ri st_app st_log st_scans].
    exists (es1 ++ es2), (si :: sis). rewrite <- !app_assoc. split; [reflexivity|]. split; [cbn [length]; congruence|].
    apply Forall_app. split.
    + eapply Forall_impl; [|exact H1]. intros e He. now left.
    + eapply Forall_impl; [|exact H2]. intros e He. now right.
Qed.

(** ** Every coefficient is in exactly one scan *)
Definition carriesb (ci : nat) (k : Z) (si : scan_info) : bool :=
  existsb (Nat.eqb ci) (si_comps si) && ((si_ss si <=? k) && (k <=? si_se si)).
Lemma carriesb_iff ci k si : carriesb ci k si = true <-> carries ci k si.
Proof.
  unfold carriesb, carries. rewrite andb_true_iff, existsb_exists. split.
  - intros [(x & Hx & E) H]. apply Nat.eqb_eq in E. subst x. split; [exact Hx|lia].
  - intros [H1 H2]. split; [exists ci; split; [exact H1|apply Nat.eqb_refl]|lia].
Qed.

Lemma filter_single_scans m b ci k : (ci < m)%nat -> 
  filter (carriesb ci k) (single_scans m b)
  = if (fst b <=? k) && (k <=? snd b) then [{| si_comps := [ci]; si_ss := fst b; si_se := snd b |}] else [].
Proof.
  intros Hci. unfold single_scans. replace m with (ci + S (m - S ci))%nat by lia. rewrite seq_app, map_app, filter_app. cbn [seq map].
  assert (Z0 : forall a n, (forall i, (a <= i < a + n)%nat -> i <> ci) ->
    filter (carriesb ci k) (map (fun i => {| si_comps := [i]; si_ss := fst b; si_se := snd b |}) (seq a n)) = []).
  { intros a n. revert a. induction n as [|n IH]; intros a Ha; [reflexivity|]. cbn [seq map filter]. unfold carriesb at 1. cbn [si_comps existsb].
    destruct (Nat.eqb ci a) eqn:Ea; [apply Nat.eqb_eq in Ea; exfalso; apply (Ha a); lia|]. cbn [orb andb]. apply IH. intros i Hi. apply Ha. lia. }
  rewrite (Z0 0%nat ci) by lia. cbn [app filter]. rewrite Z0 by lia. unfold carriesb. cbn [si_comps existsb si_ss si_se].
  rewrite Nat.add_0_l, Nat.eqb_refl. reflexivity.
Qed.

Lemma script_once s color ci k : (ci < length (comps_of (s_sampling s) color))%nat -> 0 <= k < 64 ->
  match s_scans s with Some n => 2 <= n <= 64 | None => True end ->
  exists si, filter (carriesb ci k) (scan_script s color) = [si].
Proof.
  intros Hci Hk Hn. unfold scan_script. set (m := length _) in *. destruct (factors (s_sampling s)) as [hh vv].
  destruct (s_scans s) as [n|].
  - rewrite filter_app, filter_single_scans by exact Hci. cbn [fst snd].
    assert (G : forall bs, filter (carriesb ci k) (flat_map (single_scans m) bs)
      = map (fun b => {| si_comps := [ci]; si_ss := fst b; si_se := snd b |}) (filter (fun b => (fst b <=? k) && (k <=? snd b)) bs)).
    { induction bs as [|b bs IH]; [reflexivity|]. cbn [flat_map filter]. rewrite filter_app, filter_single_scans, IH by exact Hci.
      destruct ((fst b <=? k) && (k <=? snd b)); reflexivity. }
    rewrite G. clear G.
    destruct (Z.eq_dec k 0) as [->|Hk0].
    + change ((0 <=? 0) && (0 <=? 0)) with true. cbv iota.
      assert (E : filter (fun b => (fst b <=? 0) && (0 <=? snd b)) (spectral_bands n) = []).
      { unfold spectral_bands. set (wd := 64 / (n - 1)). assert (Hw : 1 <= wd) by (unfold wd; apply Z.div_le_lower_bound; lia). clearbody wd.
        assert (G : Forall (fun b => 1 <= fst b) (map (fun i => (if i =? 0 then 1 else i * wd, if i =? n - 2 then 63 else (i + 1) * wd - 1)) (upto (n - 1)))).
        { apply Forall_map, Forall_forall. intros i Hi. unfold upto in Hi. apply in_map_iff in Hi as (j0 & <- & Hj0). apply in_seq in Hj0. cbn [fst]. destruct (Z.of_nat j0 =? 0) eqn:E; [lia|]. nia. }
        revert G. generalize (map (fun i => (if i =? 0 then 1 else i * wd, if i =? n - 2 then 63 else (i + 1) * wd - 1)) (upto (n - 1))).
        induction l as [|b l IH]; intros Hl; [reflexivity|]. apply Forall_cons_iff in Hl as [Hb Hl]. cbn [filter].
        replace (fst b <=? 0) with false by lia. cbn [andb]. now apply IH. }
      rewrite E. eexists. reflexivity.
    + replace ((0 <=? k) && (k <=? 0)) with false by lia. cbn [app].
      assert (E : exists b, filter (fun b => (fst b <=? k) && (k <=? snd b)) (spectral_bands n) = [b]).
      { pose proof (zall (fun n => forallb (fun k => Nat.eqb (length (filter (fun b => (fst b <=? k) && (k <=? snd b)) (spectral_bands n))) 1)
               (map (fun k => 1 + k) (zrange (64 - 1)))) 2 65 ltac:(vm_compute; reflexivity) n ltac:(lia)) as G.
        cbv beta in G. pose proof (zall _ 1 64 G k ltac:(lia)) as G1. cbv beta in G1. apply Nat.eqb_eq in G1.
        destruct (filter _ _) as [|b [|]]; try discriminate. now exists b. }
      destruct E as [b ->]. eexists. reflexivity.
  - destruct (negb (s_optimize s) && (hh <=? 2) && (vv <=? 2)).
    + cbn [filter]. assert (E : carriesb ci k {| si_comps := seq 0 m; si_ss := 0; si_se := 63 |} = true).
      { apply carriesb_iff. split; cbn [si_comps si_ss si_se]; [apply in_seq; lia|lia]. }
      rewrite E. eexists. reflexivity.
    + rewrite filter_single_scans by exact Hci. cbn [fst snd]. replace ((0 <=? k) && (k <=? 63)) with true by lia. eexists. reflexivity.
Qed.
Lemma script_disjoint s color ci k a b : (ci < length (comps_of (s_sampling s) color))%nat -> 0 <= k < 64 ->
  match s_scans s with Some n => 2 <= n <= 64 | None => True end -> scan_script s color = a ++ b ->
  Exists (carries ci k) a -> Exists (carries ci k) b -> False.
Proof.
  intros Hci Hk Hn E Ha Hb. destruct (script_once s color ci k Hci Hk Hn) as (si & Hsi). rewrite E, filter_app in Hsi.
  assert (G : forall l, Exists (carries ci k) l -> (1 <= length (filter (carriesb ci k) l))%nat).
  { intros l H. apply Exists_exists in H as (x & Hx & Hc). apply carriesb_iff in Hc.
    assert (I : In x (filter (carriesb ci k) l)) by (apply filter_In; auto). destruct (filter _ l); [destruct I|cbn; lia]. }
  apply G in Ha, Hb. apply (f_equal (@length _)) in Hsi. rewrite app_length in Hsi. cbn [length] in Hsi. lia.
Qed.

(** ** Prefixes of the file *)
Lemma forallb_app_l {A} (f : A -> bool) a b c : forallb f (a ++ b ++ c) = true -> forallb f (a ++ c) = true.
Proof. rewrite !forallb_app. intros H. apply andb_prop in H as [-> H]. apply andb_prop in H as [_ ->]. reflexivity. Qed.

Section Prefix.
  Variable T : transform.
  Variable t : tables.
  Variable s : settings.
  Variable color : jcolor.
  Variable pl : planes.
  Variable w h : Z.
  Variable Hw : 1 <= w <= 65535.
  Variable Hh : 1 <= h <= 65535.
  Variable Ht : storable_tables t.
  Variable Ha : apps_ok (apps_for s color).
  Variable Hri : 0 <= s_restart s < 65536.
  Variable Hsc : match s_scans s with Some n => 2 <= n <= 64 | None => True end.
  Let f := frame_for s color w h.
  Let cf := coefficients_of T s color pl w h.
  Let script := scan_script s color.
  Definition header_parts : list part :=
    map (fun '(nr, data) => Segment (224 + nr) data) (apps_for s color) ++
    [sof f; dqt s 0; dqt s 1; dht 0 0 (tb_dc t 0); dht 1 0 (tb_ac t 0)] ++
    (if (3 <=? length (fr_comps f))%nat then [dht 0 1 (tb_dc t 1); dht 1 1 (tb_ac t 1)] else []) ++
    dri (s_restart s).
  Definition the_scan (si : scan_info) : part := Scan (scan_header f si) (scan_data t f (s_restart s) cf si).
  Definition the_header : list Z := [255; 216] ++ flat_map render header_parts.
  Definition the_scans : list (list Z) := map (fun si => render (the_scan si)) script.

  Lemma parts_split : file_parts t s f color cf = header_parts ++ map the_scan script.
  Proof. unfold file_parts, header_parts, the_scan, script. rewrite <- !app_assoc. reflexivity. Qed.
  Lemma flat_map_map {A B C} (g : A -> B) (k : B -> list C) : forall l, flat_map k (map g l) = concat (map (fun a => k (g a)) l).
  Proof. induction l as [|a l IH]; [reflexivity|]. cbn [map flat_map concat]. rewrite IH. reflexivity. Qed.
  Lemma file_prefix sis : render_file (header_parts ++ map the_scan sis)
    = the_header ++ concat (map (fun si => render (the_scan si)) sis) ++ [255; 217].
  Proof. unfold render_file, the_header. rewrite flat_map_app, flat_map_map, <- !app_assoc. reflexivity. Qed.

  Lemma whole : scans_at (jpeg_file_with T t s color pl w h) the_header the_scans.
  Proof.
    split.
    - unfold jpeg_file_with. fold f. change (render_file (file_parts t s f color cf) = the_header ++ concat the_scans ++ [255; 217]).
      rewrite parts_split. apply file_prefix.
    - apply Forall_map, Forall_forall. intros si _. unfold the_scan. cbn [render app]. eexists. reflexivity.
  Qed.

  Lemma steps_segments : forall ps st st', Forall (fun p => ~ is_scan p) ps -> steps st ps = Some st' ->
    st_log st' = st_log st /\ st_scans st' = st_scans st.
  Proof.
    induction ps as [|p ps IH]; intros st st' Hp H; [injection H as <-; auto|].
    apply Forall_cons_iff in Hp as [Hp Hps]. destruct p as [m p|hd ds]; [|destruct (Hp I)]. cbn [steps] in H.
    destruct (step st (Segment m p)) as [st1|] eqn:E; [|discriminate]. apply IH in H as [-> ->]; [|exact Hps].
    cbn [step] in E.
    destruct ((224 <=? m) && (m <=? 239)); [injection E as <-; auto|].
    destruct (m =? 219); [destruct (parse_dqt _ _ _); [injection E as <-; auto|discriminate]|].
    destruct (m =? 196); [destruct (parse_dht _ _ _ _) as [[? ?]|]; [injection E as <-; auto|discriminate]|].
    destruct ((m =? 192) || (m =? 194)); [destruct (parse_sof _ _); [|discriminate]; destruct (negb _); [injection E as <-; auto|discriminate]|].
    destruct (m =? 221); [|discriminate]. destruct p as [|a [|b [|? ?]]]; try discriminate.
    destruct (_ && _ && _); [injection E as <-; auto|discriminate].
  Qed.
  Lemma header_segments : Forall (fun p => ~ is_scan p) header_parts.
  Proof.
    unfold header_parts. repeat (apply Forall_app; split).
    - apply Forall_map, Forall_forall. intros [nr d] _ H. exact H.
    - repeat (constructor; [intros H; exact H|]). constructor.
    - destruct (3 <=? length (fr_comps f))%nat; repeat (constructor; [intros H; exact H|]); constructor.
    - unfold dri. destruct (s_restart s =? 0); repeat (constructor; [intros H; exact H|]); constructor.
  Qed.

  Lemma of_scan_carries e si ci y x k : of_scan e si ->
    same_pos (en_pos e) (ci, y, x) && (en_ss e <=? k) && (k <? en_ss e + Z.of_nat (length (en_vals e))) = true -> carries ci k si.
  Proof.
    intros (A & B & C) H. destruct (en_pos e) as [[c1 y1] x1]. cbn [fst] in A. unfold same_pos in H.
    assert (c1 = ci) as -> by lia. split; [exact A|lia].
  Qed.

  Lemma filter_nil {A} (g : A -> bool) l : (forall a, In a l -> g a = true -> False) -> filter g l = [].
  Proof.
    induction l as [|a l IH]; intros H; [reflexivity|]. cbn [filter]. destruct (g a) eqn:E.
    - destruct (H a (or_introl eq_refl) E).
    - apply IH. intros b Hb. apply H. now right.
  Qed.

  Theorem prefix_decodes j : decode (jpeg_file_with T t s color pl w h) = Some j -> decoded_with T s color w h pl j ->
    forall n, (n <= length the_scans)%nat ->
    exists jn, decode (the_header ++ concat (firstn n the_scans) ++ [255; 217]) = Some jn /\ preview_with T s color w h pl n jn.
  Proof.
    intros D A n Hn.
    assert (Hok : Forall part_ok (file_parts t s f color cf)) by now apply parts_ok.
    change (jpeg_file_with T t s color pl w h) with (render_file (file_parts t s f color cf)) in D.
    rewrite decode_parts in D by exact Hok. destruct (forallb is_byte (render_file (file_parts t s f color cf))) eqn:B; [|discriminate].
    rewrite parts_split in *. clearbody cf.
    assert (Es : script = firstn n script ++ skipn n script) by (symmetry; apply firstn_skipn).
    assert (Ln : length (firstn n script) = n).
    { apply firstn_length_le. unfold the_scans in Hn. rewrite map_length in Hn. exact Hn. }
    assert (Ec : firstn n the_scans = map (fun si => render (the_scan si)) (firstn n script)) by (unfold the_scans; apply firstn_map).
    rewrite Ec, <- file_prefix. clear Ec.
    set (a := firstn n script) in *. set (b := skipn n script) in *. clearbody a b. rewrite Es in D, Hok, B. rewrite map_app in *.
    rewrite !steps_app in D. destruct (steps init_state header_parts) as [st0|] eqn:E0; [|discriminate].
    destruct (steps_segments _ _ _ header_segments E0) as [L0 S0]. cbn [init_state st_log st_scans] in L0, S0.
    rewrite steps_app in D.
    destruct (steps st0 (map the_scan a)) as [st1|] eqn:E1; [|discriminate].
    destruct (steps st1 (map the_scan b)) as [st2|] eqn:E2; [|discriminate].
    apply steps_scans in E2 as (es2 & sis2 & -> & M2 & F2); [|apply Forall_map, Forall_forall; intros; exact I].
    pose proof E1 as E1'.
    apply steps_scans in E1' as (es1 & sis1 & Est1 & M1 & F1); [|apply Forall_map, Forall_forall; intros; exact I].
    rewrite Est1 in D. cbn [st_frame st_qt st_dc st_ac st_ri st_app st_log st_scans] in D. rewrite L0, S0 in D. cbn [app] in D.
    destruct (st_frame st0) as [f0|] eqn:Ef; [|discriminate]. injection D as <-.
    destruct A as [A1 A2 A3 A4 A5 A6]. cbn [j_frame j_app j_ri j_scans j_log j_qt] in *. rewrite map_length in M1, M2.
    fold script in A4. rewrite Es in A4.
    assert (X : sis1 = a /\ sis2 = b).
    { clear - A4 M1. revert a M1 A4. induction sis1 as [|x l IH]; intros [|y a] M1 A4; try discriminate M1; [auto|].
      cbn [app] in A4. injection A4 as -> A4. cbn [length] in M1. destruct (IH a) as [-> ->]; [lia|exact A4|auto]. }
    destruct X as [-> ->].
    eexists. split.
    - rewrite decode_parts.
      2:{ apply Forall_app in Hok as [H1 H2]. apply Forall_app in H2 as [H2 _]. apply Forall_app. auto. }
      assert (B1 : forallb is_byte (render_file (header_parts ++ map the_scan a)) = true).
      { unfold render_file in *. rewrite !flat_map_app in *.
        rewrite !forallb_app in *. apply andb_prop in B as [B1 B]. apply andb_prop in B as [B2 B4]. apply andb_prop in B2 as [B2 B3].
        apply andb_prop in B3 as [B3 _]. rewrite B1, B2, B3, B4. reflexivity. }
      rewrite B1, steps_app, E0, E1, Est1. cbn [st_frame st_qt st_dc st_ac st_ri st_app st_log st_scans]. rewrite L0, S0. reflexivity.
    - assert (En : firstn n (scan_script s color) = a) by (fold script; rewrite Es; rewrite <- Ln, firstn_app, Nat.sub_diag, firstn_all; apply app_nil_r).
      split; rewrite ?En; cbn [j_frame j_app j_ri j_scans j_log j_qt]; try assumption; try reflexivity.
      + intros ci c by_ bx k Hc Hy Hx Hk Hex.
        specialize (A6 ci c by_ bx k Hc Hy Hx Hk). rewrite <- A6. unfold coef. cbn [j_log app]. rewrite filter_app.
        assert (N : filter (fun e => same_pos (en_pos e) (ci, by_, bx) && (en_ss e <=? k) && (k <? en_ss e + Z.of_nat (length (en_vals e)))) es2 = []).
        { apply filter_nil. intros e He Hm. rewrite Forall_forall in F2. specialize (F2 e He). apply Exists_exists in F2 as (si & Hsi & Ho).
          refine (script_disjoint s color ci k a b _ Hk Hsc Es Hex _).
          - apply nth_error_Some. rewrite Hc. discriminate.
          - apply Exists_exists. exists si. split; [exact Hsi|]. eapply of_scan_carries; eassumption. }
        rewrite N, app_nil_r. reflexivity.
      + intros ci by_ bx k Hex. unfold coef. cbn [j_log app].
        assert (N : filter (fun e => same_pos (en_pos e) (ci, by_, bx) && (en_ss e <=? k) && (k <? en_ss e + Z.of_nat (length (en_vals e)))) es1 = []).
        { apply filter_nil. intros e He Hm. rewrite Forall_forall in F1. specialize (F1 e He). apply Exists_exists in F1 as (si & Hsi & Ho).
          apply Hex. apply Exists_exists. exists si. split; [exact Hsi|]. eapply of_scan_carries; eassumption. }
        rewrite N. reflexivity.
  Qed.
End Prefix.

(** ** Low frequencies come first *)
Definition before (a b : scan_info) : Prop := forall ci, In ci (si_comps a) -> In ci (si_comps b) -> si_se a < si_ss b.
Lemma fop_app {A} (R : A -> A -> Prop) l1 l2 : ForallOrdPairs R l1 -> ForallOrdPairs R l2 ->
  (forall a b, In a l1 -> In b l2 -> R a b) -> ForallOrdPairs R (l1 ++ l2).
Proof.
  induction l1 as [|x l1 IH]; intros H1 H2 H; [exact H2|]. inversion H1; subst. cbn [app]. constructor.
  - apply Forall_app. split; [assumption|]. apply Forall_forall. intros b Hb. apply H; [now left|exact Hb].
  - apply IH; [assumption|exact H2|]. intros a b Ha Hb. apply H; [now right|exact Hb].
Qed.
Lemma fop_split {A} (R : A -> A -> Prop) l1 l2 a b : ForallOrdPairs R (l1 ++ l2) -> In a l1 -> In b l2 -> R a b.
Proof.
  induction l1 as [|x l1 IH]; intros H Ha Hb; [destruct Ha|]. inversion H as [|? ? F1 F2]; subst. destruct Ha as [->|Ha].
  - rewrite Forall_forall in F1. apply F1, in_or_app. now right.
  - now apply IH.
Qed.
Lemma in_singles m b si : In si (single_scans m b) -> exists ci, (ci < m)%nat /\ si = {| si_comps := [ci]; si_ss := fst b; si_se := snd b |}.
Proof. intros H. apply in_map_iff in H as (ci & <- & Hc). apply in_seq in Hc. exists ci. split; [lia|reflexivity]. Qed.
Lemma fop_seq {A} (R : A -> A -> Prop) (g : nat -> A) : forall n k, (forall i j, (k <= i < j)%nat -> (j < k + n)%nat -> R (g i) (g j)) ->
  ForallOrdPairs R (map g (seq k n)).
Proof.
  induction n as [|n IH]; intros k H; [constructor|]. cbn [seq map]. constructor.
  - apply Forall_map, Forall_forall. intros j Hj. apply in_seq in Hj. apply H; lia.
  - apply IH. intros i j Hi Hj. apply H; lia.
Qed.
Lemma singles_before m b : ForallOrdPairs before (single_scans m b).
Proof. apply fop_seq. intros i j Hij _ ci [<-|[]] [->|[]]. lia. Qed.

Lemma bands_sorted n : 2 <= n <= 64 -> ForallOrdPairs (fun a b : Z * Z => snd a < fst b) (spectral_bands n).
Proof.
  intros Hn. unfold spectral_bands. set (wd := 64 / (n - 1)). assert (Hw : 1 <= wd) by (unfold wd; apply Z.div_le_lower_bound; lia). clearbody wd.
  unfold upto. rewrite map_map. apply fop_seq. intros i j Hij Hj. cbn [fst snd].
  replace (Z.of_nat i =? n - 2) with false by lia. replace (Z.of_nat j =? 0) with false by lia. nia.
Qed.
Lemma bands_positive n : 2 <= n <= 64 -> Forall (fun b : Z * Z => 1 <= fst b) (spectral_bands n).
Proof.
  intros Hn. unfold spectral_bands. set (wd := 64 / (n - 1)). assert (Hw : 1 <= wd) by (unfold wd; apply Z.div_le_lower_bound; lia). clearbody wd.
  apply Forall_map, Forall_forall. intros i Hi. unfold upto in Hi. apply in_map_iff in Hi as (j & <- & Hj). cbn [fst].
  destruct (Z.of_nat j =? 0) eqn:E; [lia|nia].
Qed.

Lemma script_sorted s color : match s_scans s with Some n => 2 <= n <= 64 | None => True end ->
  ForallOrdPairs before (scan_script s color).
Proof.
  intros Hn. unfold scan_script. set (m := length _). destruct (factors (s_sampling s)) as [hh vv]. destruct (s_scans s) as [n|].
  - apply fop_app.
    + apply singles_before.
    + pose proof (bands_sorted n Hn) as S. induction S as [|b bs Hb _ IH]; [constructor|]. cbn [flat_map]. apply fop_app.
      * apply singles_before.
      * exact IH.
      * intros a c Ha Hc ci _ _. apply in_singles in Ha as (i & _ & ->). apply in_flat_map in Hc as (b' & Hb' & Hc).
        apply in_singles in Hc as (i' & _ & ->). cbn [si_se si_ss]. rewrite Forall_forall in Hb. now apply Hb.
    + intros a c Ha Hc ci _ _. apply in_singles in Ha as (i & _ & ->). apply in_flat_map in Hc as (b' & Hb' & Hc).
      apply in_singles in Hc as (i' & _ & ->). cbn [si_se si_ss snd]. pose proof (bands_positive n Hn) as B.
      rewrite Forall_forall in B. specialize (B b' Hb'). lia.
  - destruct (negb (s_optimize s) && (hh <=? 2) && (vv <=? 2)); [|apply singles_before].
    constructor; constructor.
Qed.

Lemma low_first s color n ci k k' : (ci < length (comps_of (s_sampling s) color))%nat ->
  match s_scans s with Some n => 2 <= n <= 64 | None => True end -> 0 <= k <= k' -> k' < 64 ->
  Exists (carries ci k') (firstn n (scan_script s color)) -> Exists (carries ci k) (firstn n (scan_script s color)).
Proof.
  intros Hci Hn Hk Hk' H. destruct (script_once s color ci k Hci ltac:(lia) Hn) as (si & E).
  assert (Hin : In si (filter (carriesb ci k) (scan_script s color))) by (rewrite E; now left). clear E.
  apply filter_In in Hin as [Hin Hc]. apply carriesb_iff in Hc.
  pose proof (script_sorted s color Hn) as S. rewrite <- (firstn_skipn n (scan_script s color)) in Hin, S.
  apply Exists_exists in H as (si' & Hin' & Hc'). apply Exists_exists.
  apply in_app_or in Hin as [Hin|Hin]; [exists si; auto|exfalso].
  pose proof (fop_split _ _ _ _ _ S Hin' Hin ci (proj1 Hc') (proj1 Hc)) as G. destruct Hc as [_ Hc], Hc' as [_ Hc']. lia.
Qed.

(** After the DC scans *)
Lemma after_dc s color n : s_scans s = Some n -> 
  firstn (length (comps_of (s_sampling s) color)) (scan_script s color) = single_scans (length (comps_of (s_sampling s) color)) (0, 0).
Proof.
  intros Hn. unfold scan_script. set (m := length _). destruct (factors (s_sampling s)) as [hh vv]. rewrite Hn.
  assert (L : length (single_scans m (0, 0)) = m) by (unfold single_scans; rewrite map_length; apply seq_length).
  rewrite <- L at 1. rewrite firstn_app, Nat.sub_diag, firstn_all. cbn [firstn]. apply app_nil_r.
Qed.
