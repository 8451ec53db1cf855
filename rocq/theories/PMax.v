(** Proofs for C50: how long the parts of a file are at most. *)
From Coq Require Import ZArith List Bool Lia ZifyBool ZifyNat.
From Verif Require Import T81 SFile SEncode SSize SHuff SMax PBits PScans PQuant PImage PGeom PRound PParts PSmall PDecide PBytesF PAll Spec.
Import ListNotations.
Open Scope Z_scope.

(** ** Code words *)
Lemma canonical_codes_short counts : forall L c cs x, canonical_codes L c counts = Some cs -> In x cs -> (length x < L + length counts)%nat.
Proof.
  induction counts as [|n counts IH]; intros L c cs x H Hx; cbn [canonical_codes] in H; [injection H as <-; destruct Hx|].
  destruct ((0 <=? n) && ((n =? 0) || (c + n <? 2 ^ Z.of_nat L))); [|discriminate].
  destruct (canonical_codes (S L) (2 * (c + n)) counts) as [cs'|] eqn:E; [|discriminate]. injection H as <-.
  apply in_app_or in Hx as [Hx|Hx].
  - apply in_map_iff in Hx as (i & <- & _). rewrite bits_of_length. cbn [length]. lia.
  - specialize (IH _ _ _ _ E Hx). cbn [length]. lia.
Qed.
Lemma code_short h v : (length (code (table_of h) v) <= 16)%nat.
Proof.
  unfold table_of, code. destruct (build_table (fst h) (snd h)) as [tb|] eqn:E; [|cbn; lia].
  destruct (find (fun e => snd e =? v) tb) as [[c k]|] eqn:F; [|cbn; lia]. apply find_some in F as [F _].
  unfold build_table in E. destruct ((length (fst h) =? 16)%nat && distinct (snd h)) eqn:E1; [|discriminate].
  destruct (canonical_codes 1 0 (fst h)) as [cs|] eqn:E2; [|discriminate].
  destruct (length cs =? length (snd h))%nat; [|discriminate]. injection E as <-. apply in_combine_l in F.
  pose proof (canonical_codes_short _ _ _ _ _ E2 F). lia.
Qed.
Lemma comp_code_short f t ci v : (length (code (comp_table f t ci) v) <= 16)%nat.
Proof. unfold comp_table. destruct (nth_error (fr_comps f) ci); [apply code_short|cbn; lia]. Qed.

Lemma category_le v n : 0 <= n -> Z.abs v < 2 ^ n -> 0 <= category v <= n.
Proof.
  intros Hn H. unfold category. destruct (v =? 0) eqn:E; [lia|].
  assert (0 < Z.abs v) by lia. pose proof (Z.log2_nonneg (Z.abs v)). apply Z.log2_lt_pow2 in H; lia.
Qed.
Lemma extra_length v n : 0 <= n -> Z.abs v < 2 ^ n -> Z.of_nat (length (extra v)) <= n.
Proof. intros Hn H. unfold extra. rewrite bits_of_length. pose proof (category_le v n Hn H). lia. Qed.

(** ** Data units *)
Section Units.
  Variables dc ac : nat -> table.
  Variable Hdc : forall ci v, (length (code (dc ci) v) <= 16)%nat.
  Variable Hac : forall ci v, (length (code (ac ci) v) <= 16)%nat.
  Lemma ac_bits ci : forall vals run, 0 <= run -> Forall (fun v => Z.abs v < 2 ^ 10) vals ->
    Z.of_nat (length (encode_ac (ac ci) run vals)) <= 26 * (run + Z.of_nat (length vals)).
  Proof.
    induction vals as [|v vals IH]; intros run Hr HF; cbn [encode_ac].
    - destruct (0 <? run) eqn:E; cbn [length]; [pose proof (Hac ci 0)|]; lia.
    - inversion HF as [|? ? Hv HF']; subst. destruct (v =? 0).
      + specialize (IH (run + 1) ltac:(lia) HF'). cbn [length]. lia.
      + specialize (IH 0 ltac:(lia) HF'). pose proof (extra_length v 10 ltac:(lia) Hv) as He.
        rewrite !app_length.
        assert (C : forall n, (length (concat (repeat (code (ac ci) 240) n)) <= 16 * n)%nat).
        { induction n as [|n IHn]; [cbn; lia|]. cbn [repeat concat]. rewrite app_length. pose proof (Hac ci 240). lia. }
        specialize (C (Z.to_nat (run / 16))). pose proof (Hac ci (16 * (run mod 16) + category v)) as Hc.
        pose proof (Z.div_mod run 16 ltac:(lia)). pose proof (Z.mod_pos_bound run 16 ltac:(lia)).
        cbn [length].
        generalize dependent (length (concat (repeat (code (ac ci) 240) (Z.to_nat (run / 16))))).
        generalize dependent (length (code (ac ci) (16 * (run mod 16) + category v))).
        generalize dependent (length (extra v)). generalize dependent (length (encode_ac (ac ci) 0 vals)).
        generalize dependent (run / 16). generalize dependent (run mod 16). clear - Hr. intros. lia.
  Qed.
  Definition unit_small (cf : coefficients) (u : unit_pos) : Prop :=
    let '(ci, y, x) := u in -1024 <= cf ci y x 0 <= 1023 /\ forall k, 1 <= k <= 63 -> Z.abs (cf ci y x k) < 2 ^ 10.
  Lemma band_length a b : Z.of_nat (length (band a b)) = Z.max 0 (b - a + 1).
  Proof. unfold band. rewrite map_length, upto_length. lia. Qed.
  Lemma in_band a b k : In k (band a b) -> a <= k <= b.
  Proof.
    unfold band, upto. rewrite map_map. intros H. apply in_map_iff in H as (i & <- & H). apply in_seq in H. lia.
  Qed.
  Lemma units_bits cf si : 0 <= si_ss si -> si_se si <= 63 -> forall us pred, (forall ci, -1024 <= pred ci <= 1023) ->
    Forall (unit_small cf) us ->
    Z.of_nat (length (encode_units dc ac (si_ss si) (si_se si) cf pred us)) <= unit_bits si * Z.of_nat (length us).
  Proof.
    intros Hs He. induction us as [|[[ci y] x] us IH]; intros pred Hp HF; [cbn; lia|].
    inversion HF as [|? ? U HF']; subst. destruct U as [U0 U1]. cbn [encode_units]. rewrite !app_length.
    specialize (IH (fun i => if (i =? ci)%nat then cf ci y x 0 else pred i)).
    assert (X : forall i, -1024 <= (if (i =? ci)%nat then cf ci y x 0 else pred i) <= 1023).
    { intros i. destruct (i =? ci)%nat; [exact U0|apply Hp]. }
    specialize (IH X HF'). clear X.
    pose proof (ac_bits ci (map (cf ci y x) (band (Z.max 1 (si_ss si)) (si_se si))) 0 ltac:(lia)) as A.
    rewrite map_length in A. pose proof (band_length (Z.max 1 (si_ss si)) (si_se si)) as L.
    specialize (A ltac:(apply Forall_forall; intros v Hv; apply in_map_iff in Hv as (k & <- & Hk); apply in_band in Hk; apply U1; lia)).
    assert (D : Z.of_nat (length (if si_ss si =? 0 then encode_dc (dc ci) (pred ci) (cf ci y x 0) else [])) <= if si_ss si =? 0 then 27 else 0).
    { destruct (si_ss si =? 0); [|cbn; lia]. unfold encode_dc. rewrite app_length.
      pose proof (Hdc ci (category (cf ci y x 0 - pred ci))). specialize (Hp ci).
      pose proof (extra_length (cf ci y x 0 - pred ci) 11 ltac:(lia) ltac:(change (2 ^ 11) with 2048; lia)).
      set (a := length (code _ _)) in *. clearbody a. set (b := length (extra _)) in *. clearbody b. lia. }
    unfold unit_bits in *. cbn [length].
    generalize dependent (if si_ss si =? 0 then 27 else 0). intros d IH D.
    generalize dependent (length (if si_ss si =? 0 then encode_dc (dc ci) (pred ci) (cf ci y x 0) else [])). intros nd D.
    generalize dependent (length (encode_ac (ac ci) 0 (map (cf ci y x) (band (Z.max 1 (si_ss si)) (si_se si))))). intros na A.
    generalize dependent (length (band (Z.max 1 (si_ss si)) (si_se si))). intros nb A L.
    match type of IH with Z.of_nat ?r <= _ => generalize dependent r end. intros nr IH.
    set (m := Z.max 0 (si_se si - Z.max 1 (si_ss si) + 1)) in *. clearbody m. generalize dependent (length us). clear - D A L. intros. nia.
  Qed.
End Units.

(** ** Bytes *)
Lemma group8_length (bits : list bool) : forall fuel, (length bits <= fuel)%nat -> 8 * Z.of_nat (length (group fuel 8 bits)) <= Z.of_nat (length bits) + 7.
Proof.
  intros fuel H. rewrite (group_length 8) by (lia || assumption). unfold cdiv. change (Z.of_nat 8) with 8.
  pose proof (Z.mul_div_le (Z.of_nat (length bits) + 8 - 1) 8 ltac:(lia)). lia.
Qed.
Lemma pack_length bits : 8 * Z.of_nat (length (pack bits)) <= Z.of_nat (length bits) + 7.
Proof.
  unfold pack. rewrite map_length. rewrite (group_length 8) by lia. unfold cdiv. change (Z.of_nat 8) with 8.
  unfold fill. rewrite app_length, repeat_length.
  pose proof (Z.mod_pos_bound (- Z.of_nat (length bits)) 8 ltac:(lia)).
  pose proof (Z.div_mod (- Z.of_nat (length bits)) 8 ltac:(lia)).
  pose proof (Z.mul_div_le (Z.of_nat (length bits + Z.to_nat (- Z.of_nat (length bits) mod 8)) + 8 - 1) 8 ltac:(lia)).
  pose proof (Z.mul_succ_div_gt (Z.of_nat (length bits + Z.to_nat (- Z.of_nat (length bits) mod 8)) + 8 - 1) 8 ltac:(lia)).
  lia.
Qed.
Lemma stuffed_length d : (length (stuffed d) <= 2 * length d)%nat.
Proof.
  induction d as [|b d IH]; [cbn; lia|]. unfold stuffed in *. cbn [flat_map length]. rewrite app_length.
  destruct (b =? 255); cbn [length]; lia.
Qed.
Lemma coded_length : forall ds m, ds <> [] ->
  Z.of_nat (length (coded_data m ds)) <= 2 * add (map (fun d => Z.of_nat (length d)) ds) + 2 * (Z.of_nat (length ds) - 1).
Proof.
  induction ds as [|d ds IH]; intros m Hn; [contradiction|]. destruct ds as [|d2 ds].
  - cbn [coded_data map]. rewrite add_cons. change (add []) with 0. pose proof (stuffed_length d). cbn [length]. lia.
  - specialize (IH (m + 1) ltac:(discriminate)). change (coded_data m (d :: d2 :: ds)) with (stuffed d ++ [255; 208 + m mod 8] ++ coded_data (m + 1) (d2 :: ds)).
    generalize dependent (coded_data (m + 1) (d2 :: ds)). intros c IH. rewrite !app_length. cbn [map] in IH |- *. rewrite (add_cons (Z.of_nat (length d))).
    generalize dependent (add (Z.of_nat (length d2) :: map (fun d => Z.of_nat (length d)) ds)). intros a IH.
    pose proof (stuffed_length d). cbn [length] in *. lia.
Qed.

(** ** Scans *)
Lemma cdiv_nonneg a b : 0 <= a -> 1 <= b -> 0 <= cdiv a b.
Proof. intros Ha Hb. unfold cdiv. apply Z.div_pos; lia. Qed.

Lemma length_concat {A} (l : list (list A)) : length (concat l) = fold_right Nat.add 0%nat (map (@length A) l).
Proof. induction l as [|x l IH]; [reflexivity|]. cbn [concat map fold_right]. now rewrite app_length, IH. Qed.

  Lemma group_concat {A} k : (0 < k)%nat -> forall fuel (l : list A), (length l <= fuel)%nat -> concat (group fuel k l) = l.
  Proof.
    intros Hk. induction fuel as [|fuel IH]; intros l Hl; [destruct l; [reflexivity|cbn in Hl; lia]|].
    cbn [group]. destruct l as [|a l]; [reflexivity|]. cbn [concat]. rewrite IH; [apply firstn_skipn|].
    rewrite skipn_length. cbn [length] in *. lia.
  Qed.
  Lemma intervals_concat {A} ri (l : list A) : 0 <= ri -> concat (intervals ri l) = l.
  Proof.
    intros Hr. unfold intervals. destruct (ri =? 0) eqn:E; [cbn; apply app_nil_r|]. apply group_concat; lia.
  Qed.
  Lemma add_le {X} (g k : X -> Z) l : (forall x, In x l -> g x <= k x) -> add (map g l) <= add (map k l).
  Proof.
    induction l as [|x l IH]; intros H; [cbn; lia|]. cbn [map]. rewrite !add_cons. pose proof (H x (or_introl eq_refl)).
    specialize (IH (fun y Hy => H y (or_intror Hy))). lia.
  Qed.
  Lemma add_const {X} c (l : list X) : add (map (fun _ => c) l) = c * Z.of_nat (length l).
  Proof. induction l as [|x l IH]; [cbn; lia|]. cbn [map length]. rewrite add_cons, IH. lia. Qed.
  Lemma add_scale {X} c (g : X -> Z) l : add (map (fun x => c * g x) l) = c * add (map g l).
  Proof. induction l as [|x l IH]; [cbn; lia|]. cbn [map]. rewrite !add_cons, IH. lia. Qed.

Section File.
  Variable T : transform.
  Variable t : tables.
  Variable s : settings.
  Variable color : jcolor.
  Variable pl : planes.
  Variable w h : Z.
  Variable Hw : 1 <= w <= 65535.
  Variable Hh : 1 <= h <= 65535.
  Variable Ht : storable_tables t.
  Variable Hs : settings_wf s.
  Let f := frame_for s color w h.
  Let cs := comps_of (s_sampling s) color.
  Let cf := coefficients_of T s color pl w h.
  Variable Hcf : forall ci y x, 0 <= y -> 0 <= x -> unit_small cf (ci, y, x).

  Lemma unit_nonneg si us u : In us (mcus_of f si) -> In u us -> 0 <= snd (fst u) /\ 0 <= snd u.
  Proof.
    assert (Hc : forall ic, In ic (flat_map (fun ci => match nth_error (fr_comps f) ci with Some c => [(ci, c)] | None => [] end) (si_comps si)) ->
      1 <= co_h (snd ic) /\ 1 <= co_v (snd ic)).
    { intros ic H. apply in_flat_map in H as (ci & _ & H). destruct (nth_error (fr_comps f) ci) as [c|] eqn:E; [|destruct H].
      destruct H as [<-|[]]. apply (comps_pos (s_sampling s) color). exact (nth_error_In _ _ E). }
    unfold mcus_of. set (l := flat_map _ _) in *. clearbody l. intros H1 H2.
    assert (U : forall n i, In i (upto n) -> 0 <= i).
    { intros n i H. unfold upto in H. apply in_map_iff in H as (k & <- & _). lia. }
    assert (I : In us (interleaved_mcus f l) -> 0 <= snd (fst u) /\ 0 <= snd u).
    { intros H. unfold interleaved_mcus in H. apply in_flat_map in H as (my & Hmy & H). apply in_map_iff in H as (mx & <- & Hmx).
      apply in_flat_map in H2 as ([ci c] & Hic & H2). apply in_flat_map in H2 as (v & Hv & H2). apply in_map_iff in H2 as (hh & <- & H2).
      apply U in Hmy, Hmx, Hv, H2. destruct (Hc _ Hic) as [A B]. cbn [fst snd] in *. clear - Hmy Hmx Hv H2 A B. nia. }
    unfold scan_mcus in H1. destruct l as [|[ci c] [|ic2 l]]; try exact (I H1).
    unfold single_mcus in H1. apply in_flat_map in H1 as (y & Hy & H1). apply in_map_iff in H1 as (x & <- & Hx).
    destruct H2 as [<-|[]]. cbn [fst snd]. split; eapply U; eassumption.
  Qed.

  Lemma select_comps l : (forall ci, In ci l -> (ci < length cs)%nat) ->
    map fst (flat_map (fun ci => match nth_error (fr_comps f) ci with Some c => [(ci, c)] | None => [] end) l) = l.
  Proof.
    induction l as [|ci l IH]; intros Hl; [reflexivity|]. cbn [flat_map].
    destruct (nth_error (fr_comps f) ci) as [c|] eqn:E.
    - cbn [app map fst]. rewrite IH; [reflexivity|]. intros x Hx. apply Hl. now right.
    - apply nth_error_None in E. specialize (Hl ci (or_introl eq_refl)). unfold f in E. cbn [frame_for fr_comps] in E. fold cs in E. lia.
  Qed.

  Lemma concat_uniform {A} (l : list (list A)) k : (forall x, In x l -> length x = k) -> length (concat l) = (length l * k)%nat.
  Proof.
    induction l as [|x l IH]; intros H; [reflexivity|]. cbn [concat length]. rewrite app_length, IH, (H x (or_introl eq_refl)); [lia|].
    intros y Hy. apply H. now right.
  Qed.

  Definition area (ci : nat) : Z := match nth_error (fr_comps f) ci with Some c => co_h c * co_v c | None => 0 end.
  Lemma sum_nonneg l : Forall (fun ic => nth_error (fr_comps f) (fst ic) = Some (snd ic)) l -> 0 <= fold_right Z.add 0 (map area (map fst l)).
  Proof.
    induction 1 as [|[ci c] l Hc Hl IH]; [reflexivity|]. cbn [map fst snd fold_right] in *. unfold area at 1. rewrite Hc.
    destruct (comps_pos (s_sampling s) color c (nth_error_In _ _ Hc)). nia.
  Qed.
  Lemma sum_units (my mx : Z) l : Forall (fun ic => nth_error (fr_comps f) (fst ic) = Some (snd ic)) l ->
    Z.of_nat (length (flat_map (fun '(ci, c) => flat_map (fun v => map (fun h => (ci : nat, my * co_v c + v, mx * co_h c + h)) (upto (co_h c))) (upto (co_v c))) l))
    = fold_right Z.add 0 (map area (map fst l)).
  Proof.
    induction 1 as [|[ci c] l Hc Hl IH]; [reflexivity|]. cbn [flat_map map fold_right]. rewrite app_length, Nat2Z.inj_add, IH.
    cbn [fst snd] in *. unfold area at 2. rewrite Hc. destruct (comps_pos (s_sampling s) color c (nth_error_In _ _ Hc)) as [A B].
    rewrite (flat_map_len _ (Z.to_nat (co_h c))) by (intros; now rewrite map_length, upto_length). rewrite upto_length. f_equal. nia.
  Qed.

  Lemma units_count si : In si (scan_script s color) -> Z.of_nat (length (concat (mcus_of f si))) = scan_units f si.
  Proof.
    intros Hin. pose proof (select_comps _ (script_comps s color si Hin)) as E.
    pose proof (mcus_length s color w h si ltac:(lia) ltac:(lia) Hin) as M. fold f in M. unfold mcu_count in M. unfold scan_units.
    unfold mcus_of in *. set (l := flat_map _ (si_comps si)) in *.
    assert (Hl : Forall (fun ic => nth_error (fr_comps f) (fst ic) = Some (snd ic)) l).
    { apply Forall_forall. intros [ci c] H. apply in_flat_map in H as (i & _ & H). destruct (nth_error (fr_comps f) i) as [c'|] eqn:E'; [|destruct H].
      destruct H as [[= <- <-]|[]]. exact E'. }
    clearbody l. rewrite <- E in M |- *.
    assert (I : Z.of_nat (length (interleaved_mcus f l)) = mcus_wide f * mcus_high f ->
      Z.of_nat (length (concat (interleaved_mcus f l))) = mcus_wide f * mcus_high f *
        fold_right Z.add 0 (map (fun ci => match nth_error (fr_comps f) ci with Some c => co_h c * co_v c | None => 0 end) (map fst l))).
    { intros M'. rewrite (concat_uniform _ (Z.to_nat (fold_right Z.add 0 (map (fun ci => match nth_error (fr_comps f) ci with Some c => co_h c * co_v c | None => 0 end) (map fst l))))).
      - rewrite Nat2Z.inj_mul, M'. rewrite Z2Nat.id; [reflexivity|]. now apply sum_nonneg.
      - intros us H. unfold interleaved_mcus in H. apply in_flat_map in H as (my & _ & H). apply in_map_iff in H as (mx & <- & _).
        apply Nat2Z.inj. rewrite Z2Nat.id by (apply sum_nonneg, Hl). now apply sum_units. }
    destruct l as [|[ci c] [|ic2 l]]; cbn [scan_mcus map fst] in *.
    - apply I. exact M.
    - inversion Hl as [|? ? Hc _]; subst. cbn [fst snd] in Hc. rewrite Hc in M |- *. rewrite <- M.
      rewrite (concat_uniform _ 1); [lia|]. intros us H. unfold single_mcus in H. apply in_flat_map in H as (y & _ & H).
      apply in_map_iff in H as (x & <- & _). reflexivity.
    - apply I. exact M.
  Qed.

  Lemma restart_nonneg : 0 <= s_restart s.
  Proof. apply Hs. Qed.
  Lemma interval_units si : add (map (fun mcus : list (list unit_pos) => Z.of_nat (length (concat mcus))) (intervals (s_restart s) (mcus_of f si)))
    = Z.of_nat (length (concat (mcus_of f si))).
  Proof.
    rewrite <- (intervals_concat (s_restart s) (mcus_of f si) restart_nonneg) at 2.
    generalize (intervals (s_restart s) (mcus_of f si)). clear. intros l. induction l as [|x l IH]; [reflexivity|].
    cbn [map concat]. rewrite add_cons, concat_app, app_length, IH. lia.
  Qed.

  Definition interval_code (si : scan_info) (mcus : list (list unit_pos)) : list bool :=
    encode_units (comp_table f (tb_dc t)) (comp_table f (tb_ac t)) (si_ss si) (si_se si) cf (fun _ => 0) (concat mcus).
  Lemma data_length si : In si (scan_script s color) ->
    8 * add (map (fun d => Z.of_nat (length d)) (scan_data t f (s_restart s) cf si))
    <= unit_bits si * scan_units f si + 7 * interval_count (s_restart s) (mcu_count f si).
  Proof.
    intros Hin. rewrite <- (units_count si Hin), <- interval_units.
    pose proof (mcus_length s color w h si ltac:(lia) ltac:(lia) Hin) as ML. fold f in ML. rewrite <- ML. clear ML.
    rewrite <- intervals_length by apply restart_nonneg.
    rewrite <- !add_scale, <- (add_const 7), <- add_map_add. unfold scan_data. rewrite !map_map.
    destruct (script_band s color si Hs Hin) as (B1 & B2 & _).
    apply add_le. intros mcus Hm. pose proof (intervals_in _ _ _ Hm) as Hi.
    fold (interval_code si mcus). pose proof (pack_length (interval_code si mcus)) as Hp.
    pose proof (units_bits (comp_table f (tb_dc t)) (comp_table f (tb_ac t)) (comp_code_short f (tb_dc t)) (comp_code_short f (tb_ac t))
      cf si ltac:(lia) ltac:(lia) (concat mcus) (fun _ => 0) ltac:(intros; lia)) as Hu.
    fold (interval_code si mcus) in Hu.
    assert (HF : Forall (unit_small cf) (concat mcus)).
    { apply Forall_forall. intros [[ci y] x] Hx. apply in_concat in Hx as (us & Hus & Hx).
      destruct (unit_nonneg si us _ (Hi _ Hus) Hx). now apply Hcf. }
    specialize (Hu HF). clear HF.
    generalize dependent (length (pack (interval_code si mcus))). generalize dependent (length (interval_code si mcus)). intros. lia.
  Qed.

  Lemma scan_length si : In si (scan_script s color) ->
    Z.of_nat (length (render (Scan (scan_header f si) (scan_data t f (s_restart s) cf si)))) <= max_scan f (s_restart s) si.
  Proof.
    intros Hin. pose proof (data_length si Hin) as D. unfold max_scan. cbv zeta.
    assert (L : Z.of_nat (length (scan_data t f (s_restart s) cf si)) = interval_count (s_restart s) (mcu_count f si)).
    { unfold scan_data. rewrite map_length, intervals_length by apply restart_nonneg. f_equal. apply (mcus_length s color w h); (lia || assumption). }
    assert (N : scan_data t f (s_restart s) cf si <> []).
    { unfold scan_data. apply map_nonempty, intervals_nonempty, mcus_nonempty; try assumption. now apply script_comps. }
    assert (H : length (scan_header f si) = (4 + 2 * length (si_comps si))%nat).
    { unfold scan_header. rewrite !app_length. cbn [length]. rewrite (flat_map_len _ 2); [lia|].
      intros ci Hci. pose proof (script_comps s color si Hin ci Hci) as Hlt.
      destruct (nth_error (fr_comps f) ci) as [c|] eqn:E; [reflexivity|]. apply nth_error_None in E. unfold f in E. cbn [frame_for fr_comps] in E. lia. }
    cbn [render]. unfold length_field. rewrite !app_length, H. cbn [length].
    pose proof (coded_length (scan_data t f (s_restart s) cf si) 0 N) as C. rewrite L in C.
    generalize dependent (length (coded_data 0 (scan_data t f (s_restart s) cf si))). intros k C.
    generalize dependent (add (map (fun d => Z.of_nat (length d)) (scan_data t f (s_restart s) cf si))). intros a D C.
    generalize dependent (interval_count (s_restart s) (mcu_count f si)). intros n D L C.
    set (b := unit_bits si * scan_units f si + 7 * n) in *. clearbody b.
    assert (a <= b / 8) by (apply Z.div_le_lower_bound; lia). lia.
  Qed.

  Lemma dht_length c d hh : storable hh -> Z.of_nat (length (render (dht c d hh))) <= 277.
  Proof.
    intros S. pose proof S as [(tb & Hb) _]. destruct (storable_lengths _ _ S Hb) as (L1 & L2 & _).
    unfold dht. cbn [render]. unfold length_field. rewrite !app_length. cbn [length]. rewrite app_length, L1. lia.
  Qed.
  Lemma dqt_length d : length (render (dqt s d)) = 69%nat.
  Proof.
    unfold dqt. cbn [render]. unfold length_field. rewrite !app_length. cbn [length]. rewrite map_length.
    change (length zigzag) with 64%nat. reflexivity.
  Qed.
  Lemma sof_length : length (render (sof f)) = (10 + 3 * length cs)%nat.
  Proof.
    unfold sof. cbn [render]. unfold length_field. rewrite !app_length. cbn [length]. rewrite !app_length.
    rewrite (flat_map_len _ 3) by reflexivity. unfold f. cbn [frame_for fr_comps]. fold cs. unfold u16_bytes. cbn [length]. lia.
  Qed.
  Lemma flat_map_total {A B} (g : A -> list B) l : Z.of_nat (length (flat_map g l)) = add (map (fun a => Z.of_nat (length (g a))) l).
  Proof. induction l as [|a l IH]; [reflexivity|]. cbn [flat_map map]. rewrite app_length, add_cons. lia. Qed.

  Lemma file_length : Z.of_nat (length (jpeg_file_with T t s color pl w h)) <= max_size s color w h.
  Proof.
    unfold jpeg_file_with. fold f.
    change (fun (ci : nat) (y x k : Z) => match nth_error (fr_comps f) ci with
      | Some c => expected T s color pl w h ci c y x k | None => 0 end) with cf.
    unfold render_file, file_parts. rewrite !app_length, !flat_map_app, !app_length. cbn [length].
    unfold max_size, max_header. cbv zeta. fold f cs.
    assert (E1 : Z.of_nat (length (flat_map render (map (fun '(nr, data) => Segment (224 + nr) data) (apps_for s color))))
      = add (map (fun a => 4 + Z.of_nat (length (snd a))) (apps_for s color))).
    { rewrite flat_map_total, map_map. unfold add. f_equal. apply map_ext. intros [nr d]. cbn [render snd]. unfold length_field.
      rewrite !app_length. cbn [length]. lia. }
    assert (E2 : Z.of_nat (length (flat_map render [sof f; dqt s 0; dqt s 1; dht 0 0 (tb_dc t 0); dht 1 0 (tb_ac t 0)]))
      <= 10 + 3 * Z.of_nat (length cs) + 2 * 69 + 2 * 277).
    { cbn [flat_map]. rewrite !app_length, sof_length, !dqt_length. cbn [length].
      pose proof (dht_length 0 0 _ (proj1 (Ht 0))). pose proof (dht_length 1 0 _ (proj2 (Ht 0))). lia. }
    assert (E3 : Z.of_nat (length (flat_map render (if (3 <=? length (fr_comps f))%nat then [dht 0 1 (tb_dc t 1); dht 1 1 (tb_ac t 1)] else [])))
      <= (if 3 <=? Z.of_nat (length cs) then 4 else 2) * 277 - 2 * 277).
    { change (fr_comps f) with cs. pose proof (dht_length 0 1 _ (proj1 (Ht 1))). pose proof (dht_length 1 1 _ (proj2 (Ht 1))).
      destruct (3 <=? length cs)%nat eqn:E; replace (3 <=? Z.of_nat (length cs)) with (3 <=? length cs)%nat by lia; rewrite E; [|cbn; lia].
      cbn [flat_map]. rewrite !app_length. cbn [length]. lia. }
    assert (E4 : Z.of_nat (length (flat_map render (dri (s_restart s)))) = if s_restart s =? 0 then 0 else 6).
    { unfold dri. destruct (s_restart s =? 0); reflexivity. }
    assert (E5 : Z.of_nat (length (flat_map render (map (fun si => Scan (scan_header f si) (scan_data t f (s_restart s) cf si)) (scan_script s color))))
      <= add (map (max_scan f (s_restart s)) (scan_script s color))).
    { rewrite flat_map_total, map_map. apply add_le. intros si Hin. now apply scan_length. }
    change (fold_right Z.add 0 (map (fun a => 4 + Z.of_nat (length (snd a))) (apps_for s color)))
      with (add (map (fun a => 4 + Z.of_nat (length (snd a))) (apps_for s color))).
    change (fold_right Z.add 0 (map (max_scan f (s_restart s)) (scan_script s color))) with (add (map (max_scan f (s_restart s)) (scan_script s color))).
    change (4 + 1 + 16 + 256) with 277.
    rewrite !Nat2Z.inj_add, E1, E4.
    generalize dependent (length (flat_map render [sof f; dqt s 0; dqt s 1; dht 0 0 (tb_dc t 0); dht 1 0 (tb_ac t 0)])).
    generalize dependent (length (flat_map render (if (3 <=? length (fr_comps f))%nat then [dht 0 1 (tb_dc t 1); dht 1 1 (tb_ac t 1)] else []))).
    generalize dependent (length (flat_map render (map (fun si => Scan (scan_header f si) (scan_data t f (s_restart s) cf si)) (scan_script s color)))).
    generalize (add (map (fun a => 4 + Z.of_nat (length (snd a))) (apps_for s color))).
    generalize (add (map (max_scan f (s_restart s)) (scan_script s color))).
    generalize (if s_restart s =? 0 then 0 else 6). generalize (if 3 <=? Z.of_nat (length cs) then 4 else 2).
    clear. intros. lia.
  Qed.
End File.

(** ** A simpler bound *)
Section Simple.
  Variable s : settings.
  Variable color : jcolor.
  Variable w h : Z.
  Variable Hw : 1 <= w <= 65535.
  Variable Hh : 1 <= h <= 65535.
  Variable Hs : settings_wf s.
  Let f := frame_for s color w h.
  Let cs := comps_of (s_sampling s) color.
  Let n := length cs.

  Lemma n_range : (1 <= n <= 4)%nat.
  Proof. unfold n, cs, comps_of. destruct (factors (s_sampling s)). destruct color; cbn [length]; lia. Qed.
  Lemma unit_bits_nonneg si : 0 <= unit_bits si.
  Proof. unfold unit_bits. destruct (si_ss si =? 0); lia. Qed.

  Lemma cdiv_cdiv a b c : 0 <= a -> 1 <= b -> 1 <= c -> cdiv (cdiv a b) c = cdiv a (b * c).
  Proof.
    intros Ha Hb Hc. unfold cdiv. replace ((a + b - 1) / b + c - 1) with ((a + b - 1 + (c - 1) * b) / b).
    2:{ rewrite Z.div_add by lia. lia. }
    rewrite Z.div_div by lia. f_equal. lia.
  Qed.
  Lemma cdiv_le_mul a k m : 0 <= a -> 1 <= k -> 1 <= m -> cdiv (a * k) m <= cdiv a m * k.
  Proof.
    intros Ha Hk Hm. unfold cdiv. apply Z.lt_succ_r, Z.div_lt_upper_bound; [lia|].
    pose proof (Z.mul_succ_div_gt (a + m - 1) m ltac:(lia)). set (q := (a + m - 1) / m) in *. clearbody q. nia.
  Qed.
  Lemma comp_area c : In c cs -> blocks_wide f c * blocks_high f c <= mcus_wide f * mcus_high f * (co_h c * co_v c).
  Proof.
    intros Hc. destruct (comps_pos (s_sampling s) color c Hc) as [A B].
    assert (W : 0 <= blocks_wide f c <= mcus_wide f * co_h c).
    { unfold blocks_wide, comp_width, mcus_wide. pose proof (hmax_pos f) as M. change (fr_width f) with w.
      assert (0 <= w * co_h c) by nia. rewrite cdiv_cdiv by lia. split; [apply cdiv_nonneg; lia|].
      rewrite (Z.mul_comm 8). apply cdiv_le_mul; lia. }
    assert (H : 0 <= blocks_high f c <= mcus_high f * co_v c).
    { unfold blocks_high, comp_height, mcus_high. pose proof (vmax_pos f) as M. change (fr_height f) with h.
      assert (0 <= h * co_v c) by nia. rewrite cdiv_cdiv by lia. split; [apply cdiv_nonneg; lia|].
      rewrite (Z.mul_comm 8). apply cdiv_le_mul; lia. }
    replace (mcus_wide f * mcus_high f * (co_h c * co_v c)) with ((mcus_wide f * co_h c) * (mcus_high f * co_v c)) by ring.
    apply Z.mul_le_mono_nonneg; lia.
  Qed.
  Lemma blocks_padded : block_count f <= padded_blocks f.
  Proof.
    unfold block_count, padded_blocks. change (fr_comps f) with cs.
    assert (G : forall l, incl l cs -> fold_right Z.add 0 (map (fun c => blocks_wide f c * blocks_high f c) l)
      <= mcus_wide f * mcus_high f * fold_right Z.add 0 (map (fun c => co_h c * co_v c) l)).
    { induction l as [|c l IH]; intros Hl; cbn [map fold_right]; [lia|].
      pose proof (comp_area c (Hl c (or_introl eq_refl))). specialize (IH (fun x Hx => Hl x (or_intror Hx))). lia. }
    apply G. intros x Hx. exact Hx.
  Qed.

  Lemma singles_units b : add (map (fun si => unit_bits si * scan_units f si) (single_scans n b))
    = unit_bits {| si_comps := []; si_ss := fst b; si_se := snd b |} * block_count f.
  Proof.
    unfold single_scans. rewrite map_map. cbn [scan_units si_comps]. unfold unit_bits. cbn [si_ss si_se].
    set (u := (if fst b =? 0 then 27 else 0) + _). clearbody u. rewrite add_scale. f_equal.
    unfold block_count, n. change (fr_comps f) with cs.
    assert (G : forall (l r : list comp), add (map (fun ci => match nth_error (l ++ r) ci with Some c => blocks_wide f c * blocks_high f c | None => 0 end) (seq (length l) (length r)))
      = fold_right Z.add 0 (map (fun c => blocks_wide f c * blocks_high f c) r)).
    { intros l r. revert l. induction r as [|c r IH]; intros l; [reflexivity|]. cbn [length seq map fold_right]. rewrite add_cons.
      rewrite nth_error_app2 by lia. rewrite Nat.sub_diag. cbn [nth_error]. f_equal.
      specialize (IH (l ++ [c])). rewrite <- app_assoc, app_length in IH. cbn [app length] in IH. rewrite Nat.add_1_r in IH. exact IH. }
    exact (G [] cs).
  Qed.

  Lemma bands_bits m : 2 <= m <= 64 ->
    add (map (fun b => unit_bits {| si_comps := []; si_ss := fst b; si_se := snd b |}) (spectral_bands m)) = 26 * 63.
  Proof.
    intros Hm.
    assert (G : forallb (fun m => add (map (fun b => unit_bits {| si_comps := []; si_ss := fst b; si_se := snd b |}) (spectral_bands m)) =? 26 * 63)
      (map (fun i => 2 + i) (upto 63)) = true) by (vm_compute; reflexivity).
    rewrite forallb_forall in G. apply Z.eqb_eq. apply G. apply in_map_iff. exists (m - 2). split; [lia|].
    unfold upto. apply in_map_iff. exists (Z.to_nat (m - 2)). split; [lia|]. apply in_seq. lia.
  Qed.

  Lemma interleaved_units : add (map (fun si => unit_bits si * scan_units f si) [{| si_comps := seq 0 n; si_ss := 0; si_se := 63 |}])
    <= 1665 * padded_blocks f.
  Proof.
    cbn [map]. rewrite add_cons. change (add []) with 0. change (unit_bits {| si_comps := seq 0 n; si_ss := 0; si_se := 63 |}) with 1665.
    assert (U : scan_units f {| si_comps := seq 0 n; si_ss := 0; si_se := 63 |} <= padded_blocks f); [|lia].
    unfold padded_blocks. unfold scan_units, si_comps. change (fr_comps f) with cs.
    assert (G : forall (l r : list comp), fold_right Z.add 0 (map (fun ci => match nth_error (l ++ r) ci with Some c => co_h c * co_v c | None => 0 end) (seq (length l) (length r)))
      = fold_right Z.add 0 (map (fun c => co_h c * co_v c) r)).
    { intros l r. revert l. induction r as [|c r IH]; intros l; [reflexivity|]. cbn [length seq map fold_right].
      rewrite nth_error_app2 by lia. rewrite Nat.sub_diag. cbn [nth_error]. f_equal.
      specialize (IH (l ++ [c])). rewrite <- app_assoc, app_length in IH. cbn [app length] in IH. rewrite Nat.add_1_r in IH. exact IH. }
    specialize (G [] cs). cbn [app length] in G. fold n in G. rewrite <- G. clear G.
    assert (A : forall c, In c cs -> blocks_wide f c * blocks_high f c <= mcus_wide f * mcus_high f * (co_h c * co_v c)) by exact comp_area.
    assert (E : forall ci, nth_error cs ci = nth_error (fr_comps f) ci) by reflexivity. unfold n.
    destruct cs as [|c [|c2 l]]; cbn [length seq].
    - cbn [map fold_right]. lia.
    - cbn [nth_error map fold_right]. specialize (A c (or_introl eq_refl)). rewrite Z.add_0_r. exact A.
    - apply Z.le_refl.
  Qed.

  Lemma total_units : add (map (fun si => unit_bits si * scan_units f si) (scan_script s color)) <= 1665 * padded_blocks f.
  Proof.
    pose proof blocks_padded as B. pose proof interleaved_units as I. pose proof (sw_scans _ Hs) as Hsc.
    unfold scan_script. fold cs. fold n. destruct (factors (s_sampling s)) as [hh vv]. destruct (s_scans s) as [m|].
    - rewrite map_app, add_app, singles_units. cbn [fst snd].
      assert (F : forall l, add (map (fun si => unit_bits si * scan_units f si) (flat_map (single_scans n) l))
        = add (map (fun b => unit_bits {| si_comps := []; si_ss := fst b; si_se := snd b |}) l) * block_count f).
      { induction l as [|b l IH]; [reflexivity|]. cbn [flat_map map]. rewrite map_app, add_app, add_cons, singles_units, IH. lia. }
      rewrite F, bands_bits by exact Hsc. change (unit_bits {| si_comps := []; si_ss := 0; si_se := 0 |}) with 27.
      generalize dependent (block_count f). generalize (padded_blocks f). clear. intros. lia.
    - destruct (negb (s_optimize s) && (hh <=? 2) && (vv <=? 2)); [exact I|]. rewrite singles_units. cbn [fst snd].
      change (unit_bits {| si_comps := []; si_ss := 0; si_se := 63 |}) with 1665. lia.
  Qed.

  Lemma script_length : (length (scan_script s color) <= 256)%nat.
  Proof.
    pose proof n_range as N. pose proof (sw_scans _ Hs) as Hsc.
    assert (S : forall b, length (single_scans n b) = n) by (intros; unfold single_scans; now rewrite map_length, seq_length).
    unfold scan_script. fold cs. fold n. destruct (factors (s_sampling s)) as [hh vv]. destruct (s_scans s) as [m|].
    - rewrite app_length, S. rewrite (flat_map_len _ n) by (intros; apply S).
      unfold spectral_bands. rewrite map_length, upto_length. nia.
    - destruct (negb (s_optimize s) && (hh <=? 2) && (vv <=? 2)); [cbn; lia|]. rewrite S. lia.
  Qed.

  Lemma count_nonneg si : In si (scan_script s color) -> 1 <= interval_count (s_restart s) (mcu_count f si).
  Proof.
    intros Hin. pose proof (restart_nonneg s Hs) as R. unfold f. rewrite <- (mcus_length s color w h si) by (lia || assumption).
    rewrite <- intervals_length by exact R.
    assert (N : intervals (s_restart s) (mcus_of (frame_for s color w h) si) <> []).
    { apply intervals_nonempty, mcus_nonempty; try assumption. now apply script_comps. }
    destruct (intervals _ _); [contradiction|]. cbn [length]. lia.
  Qed.

  Lemma scans_bound : 4 * add (map (max_scan f (s_restart s)) (scan_script s color))
    <= 1665 * padded_blocks f + 15 * add (map (fun si => interval_count (s_restart s) (mcu_count f si)) (scan_script s color)) + 56 * 256.
  Proof.
    pose proof total_units as U. pose proof script_length as L.
    assert (G : forall l, incl l (scan_script s color) -> 4 * add (map (max_scan f (s_restart s)) l)
      <= add (map (fun si => unit_bits si * scan_units f si) l)
         + 15 * add (map (fun si => interval_count (s_restart s) (mcu_count f si)) l) + 56 * Z.of_nat (length l)).
    { induction l as [|si l IH]; intros Hl; [cbn; lia|]. cbn [map]. rewrite !add_cons. cbn [length].
      specialize (IH (fun x Hx => Hl x (or_intror Hx))).
      destruct (script_band s color si Hs (Hl si (or_introl eq_refl))) as (_ & _ & C).
      unfold max_scan at 1. cbv zeta. set (k := interval_count _ _) in *. set (u := unit_bits si * _) in *. clearbody k u.
      pose proof (Z.mul_div_le (u + 7 * k) 8 ltac:(lia)).
      generalize dependent (add (map (max_scan f (s_restart s)) l)). generalize dependent ((u + 7 * k) / 8).
      generalize dependent (add (map (fun si => unit_bits si * scan_units f si) l)).
      generalize dependent (add (map (fun si => interval_count (s_restart s) (mcu_count f si)) l)).
      clear - C. intros. lia. }
    specialize (G _ (fun x Hx => Hx)).
    generalize dependent (add (map (max_scan f (s_restart s)) (scan_script s color))).
    generalize dependent (add (map (fun si => unit_bits si * scan_units f si) (scan_script s color))).
    generalize dependent (add (map (fun si => interval_count (s_restart s) (mcu_count f si)) (scan_script s color))).
    generalize dependent (padded_blocks f). clear - L. intros. lia.
  Qed.

  Lemma header_bound : max_header s color <= 1310 + fold_right Z.add 0 (map (fun a => 4 + Z.of_nat (length (snd a))) (s_segments s)).
  Proof.
    unfold max_header. cbv zeta. fold cs. fold n. pose proof n_range as N.
    assert (J : length (jfif (s_density s)) = 14%nat) by (unfold jfif; destruct (s_density s); reflexivity).
    assert (A : fold_right Z.add 0 (map (fun a => 4 + Z.of_nat (length (snd a))) (apps_for s color))
      <= 34 + fold_right Z.add 0 (map (fun a => 4 + Z.of_nat (length (snd a))) (s_segments s))).
    { unfold apps_for. cbn [map fold_right snd]. rewrite J. destruct color; cbn [app map fold_right snd adobe length]; lia. }
    destruct (3 <=? Z.of_nat n), (s_restart s =? 0);
      generalize dependent (fold_right Z.add 0 (map (fun a => 4 + Z.of_nat (length (snd a))) (apps_for s color)));
      generalize (fold_right Z.add 0 (map (fun a => 4 + Z.of_nat (length (snd a))) (s_segments s))); intros; lia.
  Qed.

  Lemma simple_bound : max_size s color w h <= 6000 + fold_right Z.add 0 (map (fun a => 4 + Z.of_nat (length (snd a))) (s_segments s))
    + 417 * padded_blocks f + 4 * add (map (fun si => interval_count (s_restart s) (mcu_count f si)) (scan_script s color)).
  Proof.
    pose proof scans_bound as S. pose proof header_bound as H. unfold max_size. fold f. fold (add (map (max_scan f (s_restart s)) (scan_script s color))).
    assert (N : 0 <= add (map (fun si => interval_count (s_restart s) (mcu_count f si)) (scan_script s color))).
    { pose proof (add_le (fun _ => 0) (fun si => interval_count (s_restart s) (mcu_count f si)) (scan_script s color)) as A.
      rewrite add_const, Z.mul_0_l in A. apply A. intros si Hin. pose proof (count_nonneg si Hin). lia. }
    assert (B : 0 <= padded_blocks f).
    { pose proof blocks_padded as B. assert (0 <= block_count f); [|lia]. unfold block_count. change (fr_comps f) with cs.
      assert (G : forall l, incl l cs -> 0 <= fold_right Z.add 0 (map (fun c => blocks_wide f c * blocks_high f c) l)); [|apply G; intros x Hx; exact Hx].
      induction l as [|c l IH]; intros Hl; cbn [map fold_right]; [lia|]. specialize (IH (fun x Hx => Hl x (or_intror Hx))).
      destruct (comps_pos (s_sampling s) color c (Hl c (or_introl eq_refl))) as [P1 P2].
      assert (0 <= blocks_wide f c) by (unfold blocks_wide, comp_width; apply cdiv_nonneg; [apply cdiv_nonneg; [change (fr_width f) with w; nia|apply hmax_pos]|lia]).
      assert (0 <= blocks_high f c) by (unfold blocks_high, comp_height; apply cdiv_nonneg; [apply cdiv_nonneg; [change (fr_height f) with h; nia|apply vmax_pos]|lia]).
      nia. }
    generalize dependent (add (map (max_scan f (s_restart s)) (scan_script s color))).
    generalize dependent (add (map (fun si => interval_count (s_restart s) (mcu_count f si)) (scan_script s color))).
    generalize dependent (padded_blocks f). generalize dependent (max_header s color).
    generalize (fold_right Z.add 0 (map (fun a => 4 + Z.of_nat (length (snd a))) (s_segments s))). clear. intros. lia.
  Qed.
End Simple.

(** ** The coefficients *)
From Verif Require Import PApi PTop PWhole PEncode PPixel.
Lemma coefficients_small s op F T im pl : settings_wf s -> op_ok op F -> transform_is F T -> image_ok im pl ->
  forall ci y x, 0 <= y -> 0 <= x -> unit_small (coefficients_of T s (im_color im) pl (im_width im) (im_height im)) (ci, y, x).
Proof.
  intros Hs Hop HF Him ci y x Hy Hx. unfold unit_small, coefficients_of.
  pose proof (spec_cf_ok s Hs F T im pl HF ci) as S. unfold spec_cf in S.
  destruct (nth_error (fr_comps (frame_for s (im_color im) (im_width im) (im_height im))) ci) as [cc|] eqn:E.
  2:{ split; [lia|]. intros. change (2 ^ 10) with 1024. lia. }
  assert (E' := E). rewrite <- frame_for_eq in E'. unfold frame_of in E'. cbn [fr_comps] in E'.
  rewrite nth_error_map in E'. destruct (nth_error (init_components (s_sampling s) (im_color im)) ci) as [c|] eqn:Ec; [|discriminate].
  clear E'. specialize (S c).
  assert (Hcs : comps_ok (init_components (s_sampling s) (im_color im)) (max_h (s_sampling s) (im_color im)) (max_v (s_sampling s) (im_color im))) by apply init_components_ok.
  pose proof (cs_comp _ _ _ Hcs _ _ Ec) as Hc.
  set (b := cblock im pl F (max_h (s_sampling s) (im_color im)) (max_v (s_sampling s) (im_color im))
    (qtable_of (s_luma s) (e_quality (enc_of s)) true) (qtable_of (s_chroma s) (e_quality (enc_of s)) false) ci c y x) in *.
  assert (B : block_ok b).
  { unfold b, cblock. pose proof (stride_pos _ (c_h c) (cs_mh _ _ _ Hcs) (ck_h _ _ _ _ _ Hc)) as Hhs.
    pose proof (stride_pos _ (c_v c) (cs_mv _ _ _ Hcs) (ck_v _ _ _ _ _ Hc)) as Hvs.
    apply (coef_block_ok im pl Him op F Hop); unfold hstride, vstride; try lia.
    - rewrite <- (init_components_length (s_sampling s)). apply nth_error_Some. rewrite Ec. discriminate.
    - apply qsel_ok; apply qtable_of_ok; [apply wf_luma|apply wf_chroma]; exact Hs. }
  destruct B as (B1 & B2 & B3). split.
  - rewrite <- (S y x 0 eq_refl ltac:(lia)). exact B2.
  - intros k Hk. rewrite <- (S y x k eq_refl ltac:(lia)). fold b. rewrite Forall_forall in B3. apply B3.
    assert (L : length (slice b 1 64) = 63%nat) by (unfold slice; rewrite firstn_length, skipn_length, B1; reflexivity).
    pose proof (block_split b B1) as Sp. generalize dependent (slice b 1 64). intros sl _ L Sp. unfold zn. rewrite Sp. replace (Z.to_nat k) with (Datatypes.S (Z.to_nat (k - 1))) by lia. cbn [nth].
    apply nth_In. lia.
Qed.
