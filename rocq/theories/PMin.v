(** Lengths of files from below (C71). *)
From Coq Require Import ZArith List Bool Lia ZifyBool ZifyNat.
From Verif Require Import T81 SFile SEncode SSize SMax SMin SAvx2 PBits PParts PParse PBytes PSegments PSmall PDecide PAll PMax.
Import ListNotations.
Open Scope Z_scope.

(** ** The code words of Annex K *)
Definition ktab (d : Z) := table_of (tb_ac annexK_tables d).
Definition kdc (d : Z) := table_of (tb_dc annexK_tables d).
Lemma kdc_zero d : code (kdc d) 0 = [false; false].
Proof. unfold kdc. cbn [annexK_tables tb_dc]. destruct (d =? 0); vm_compute; reflexivity. Qed.
Lemma kac_eob d : code (ktab d) 0 = if d =? 0 then [true; false; true; false] else [false; false].
Proof. unfold ktab. cbn [annexK_tables tb_ac]. destruct (d =? 0); vm_compute; reflexivity. Qed.
Lemma kdc_len d v : 0 <= v <= 11 -> 2 <= Z.of_nat (length (code (kdc d) v)).
Proof.
  intros Hv.
  assert (A : forallb (fun v => (2 <=? Z.of_nat (length (code (kdc d) v)))) (upto 12) = true).
  { unfold kdc. cbn [annexK_tables tb_dc]. destruct (d =? 0); vm_compute; reflexivity. }
  rewrite forallb_forall in A. apply Z.leb_le, A. unfold upto. apply in_map_iff. exists (Z.to_nat v).
  split; [lia|]. apply in_seq. lia.
Qed.
Definition klow (d r c : Z) : Z := if d =? 0 then (if r =? 0 then 3 else 5) else 2.
Lemma kac_len d r c : 0 <= r <= 15 -> 1 <= c <= 10 -> klow d r c <= Z.of_nat (length (code (ktab d) (16 * r + c))) + c.
Proof.
  intros Hr Hc.
  assert (A : forallb (fun r => forallb (fun c => (klow d r (c + 1) <=? Z.of_nat (length (code (ktab d) (16 * r + (c + 1)))) + (c + 1))) (upto 10)) (upto 16) = true).
  { unfold ktab, klow. cbn [annexK_tables tb_ac]. destruct (d =? 0); vm_compute; reflexivity. }
  rewrite forallb_forall in A. specialize (A r). rewrite forallb_forall in A.
  assert (U : forall n x, 0 <= x < n -> In x (upto n)).
  { intros n x Hx. unfold upto. apply in_map_iff. exists (Z.to_nat x). split; [lia|]. apply in_seq. lia. }
  specialize (A (U 16 r ltac:(lia)) (c - 1) (U 10 (c - 1) ltac:(lia))). replace (c - 1 + 1) with c in A by lia. apply Z.leb_le, A.
Qed.
Lemma kac_zrl d : 4 <= Z.of_nat (length (code (ktab d) 240)).
Proof. unfold ktab. cbn [annexK_tables tb_ac]. destruct (d =? 0); vm_compute; discriminate. Qed.

Lemma category_pos v : v <> 0 -> 1 <= category v.
Proof. intros H. unfold category. replace (v =? 0) with false by lia. pose proof (Z.log2_nonneg (Z.abs v)). lia. Qed.
Lemma extra_len v : 0 <= category v -> Z.of_nat (length (extra v)) = category v.
Proof. intros H. unfold extra. rewrite bits_of_length. lia. Qed.

Lemma band_len a b : Z.of_nat (length (band a b)) = Z.max 0 (b - a + 1).
Proof. unfold band, upto. rewrite !map_length, seq_length. lia. Qed.
Lemma band_in a b k : In k (band a b) -> a <= k <= b.
Proof. unfold band, upto. intros H. apply in_map_iff in H as (i & <- & H). apply in_map_iff in H as (j & <- & H). apply in_seq in H. lia. Qed.

(** ** A data unit *)
Lemma ac_least d : forall vals run, 0 <= run -> Forall (fun v => Z.abs v < 2 ^ 10) vals ->
  least_ac d (run + Z.of_nat (length vals)) <= Z.of_nat (length (encode_ac (ktab d) run vals)).
Proof.
  induction vals as [|v vals IH]; intros run Hr HF; cbn [encode_ac].
  - cbn [length]. rewrite Z.add_0_r. destruct (0 <? run) eqn:E.
    + rewrite kac_eob. unfold least_ac. destruct (run <=? 0) eqn:E1; [lia|]. destruct (d =? 0); [|cbn; lia]. destruct (run =? 1); cbn; lia.
    + unfold least_ac. replace (run <=? 0) with true by lia. cbn. lia.
  - inversion HF as [|? ? Hv HF']; subst. cbn [length]. destruct (v =? 0) eqn:Ev.
    + specialize (IH (run + 1) ltac:(lia) HF'). replace (run + Z.of_nat (S (length vals))) with (run + 1 + Z.of_nat (length vals)) by lia. exact IH.
    + specialize (IH 0 ltac:(lia) HF'). pose proof (category_le v 10 ltac:(lia) Hv) as Hc. pose proof (category_pos v ltac:(lia)) as Hc1.
      rewrite !app_length, !Nat2Z.inj_add, extra_len by lia.
      pose proof (Z.div_mod run 16 ltac:(lia)) as D. pose proof (Z.mod_pos_bound run 16 ltac:(lia)) as M.
      pose proof (kac_len d (run mod 16) (category v) ltac:(lia) ltac:(lia)) as K.
      assert (Zr : 0 <= Z.of_nat (length (concat (repeat (code (ktab d) 240) (Z.to_nat (run / 16))))) /\
                   (1 <= run / 16 -> 4 <= Z.of_nat (length (concat (repeat (code (ktab d) 240) (Z.to_nat (run / 16))))))).
      { split; [lia|]. intros H1. destruct (Z.to_nat (run / 16)) as [|n] eqn:En; [lia|]. cbn [repeat concat]. rewrite app_length. pose proof (kac_zrl d). lia. }
      set (k := Z.of_nat (length (code (ktab d) (16 * (run mod 16) + category v)))) in *.
      set (z := Z.of_nat (length (concat (repeat (code (ktab d) 240) (Z.to_nat (run / 16)))))) in *.
      set (r := Z.of_nat (length (encode_ac (ktab d) 0 vals))) in *. assert (0 <= r) by (unfold r; lia).
      clearbody k z r. unfold klow in K. unfold least_ac in *. rewrite Z.add_0_l in IH.
      set (n := Z.of_nat (length vals)) in *. replace (Z.of_nat (S (length vals))) with (n + 1) by (unfold n; lia).
      assert (0 <= n) by (unfold n; lia). clearbody n. generalize dependent (category v). intros c.
      destruct (d =? 0); destruct (run + (n + 1) <=? 0) eqn:E1; try lia.
      destruct (run mod 16 =? 0) eqn:E2; destruct (run + (n + 1) =? 1) eqn:E3; destruct (n <=? 0) eqn:E4; destruct (n =? 1) eqn:E5; lia.
Qed.

Section Units.
  Variable f : frame.
  Variable cf : coefficients.
  Variable si : scan_info.
  Variable Hss : 0 <= si_ss si <= 63.
  Variable Hse : 0 <= si_se si <= 63.
  Notation dc := (comp_table f (tb_dc annexK_tables)).
  Notation ac := (comp_table f (tb_ac annexK_tables)).
  Definition tq_of (ci : nat) : Z := match nth_error (fr_comps f) ci with Some c => co_tq c | None => 1 end.

  Lemma units_least : forall us pred, (forall ci, -1024 <= pred ci <= 1023) -> Forall (unit_small cf) us ->
    Forall (fun u : unit_pos => nth_error (fr_comps f) (fst (fst u)) <> None) us ->
    sum_all (map (least_unit f si) us) <= Z.of_nat (length (encode_units dc ac (si_ss si) (si_se si) cf pred us)).
  Proof.
    induction us as [|[[ci y] x] us IH]; intros pred Hp HF HN; [cbn; lia|].
    apply Forall_cons_iff in HF as [[H0 Hk] HF]. apply Forall_cons_iff in HN as [Hn HN]. cbn [fst] in Hn.
    cbn [map encode_units]. unfold sum_all in *. cbn [fold_right]. rewrite !app_length, !Nat2Z.inj_add.
    specialize (IH (fun i => if (i =? ci)%nat then cf ci y x 0 else pred i)
      ltac:(intros i; cbv beta; destruct (i =? ci)%nat; [exact H0|apply Hp]) HF HN).
    assert (A : least_ac (tq_of ci) (si_se si - Z.max 1 (si_ss si) + 1)
      <= Z.of_nat (length (encode_ac (ac ci) 0 (map (cf ci y x) (band (Z.max 1 (si_ss si)) (si_se si)))))).
    { unfold comp_table, tq_of. destruct (nth_error (fr_comps f) ci) as [c|]; [|contradiction]. fold (ktab (co_tq c)).
      pose proof (ac_least (co_tq c) (map (cf ci y x) (band (Z.max 1 (si_ss si)) (si_se si))) 0 ltac:(lia)) as A.
      rewrite map_length, band_len, Z.add_0_l in A.
      replace (least_ac (co_tq c) (si_se si - Z.max 1 (si_ss si) + 1))
        with (least_ac (co_tq c) (Z.max 0 (si_se si - Z.max 1 (si_ss si) + 1))).
      - apply A. apply Forall_forall. intros v Hv. apply in_map_iff in Hv as (k & <- & Hin). apply band_in in Hin. apply Hk. lia.
      - unfold least_ac. destruct (Z.le_gt_cases (si_se si - Z.max 1 (si_ss si) + 1) 0) as [L|L].
        + replace (_ <=? 0) with true by lia. now replace (si_se si - Z.max 1 (si_ss si) + 1 <=? 0) with true by lia.
        + now replace (Z.max 0 (si_se si - Z.max 1 (si_ss si) + 1)) with (si_se si - Z.max 1 (si_ss si) + 1) by lia. }
    assert (D : (if si_ss si =? 0 then 2 else 0) <= Z.of_nat (length (if si_ss si =? 0 then encode_dc (dc ci) (pred ci) (cf ci y x 0) else []))).
    { destruct (si_ss si =? 0); [|cbn; lia]. unfold encode_dc. rewrite app_length.
      unfold comp_table. destruct (nth_error (fr_comps f) ci) as [c|]; [|contradiction]. fold (kdc (co_tq c)).
      pose proof (Hp ci). pose proof (category_le (cf ci y x 0 - pred ci) 11 ltac:(lia) ltac:(change (2 ^ 11) with 2048; lia)) as Hc.
      pose proof (kdc_len (co_tq c) _ Hc). lia. }
    unfold least_unit at 1. cbv beta iota. fold (tq_of ci).
    generalize dependent (if si_ss si =? 0 then 2 else 0). intros d2 D. generalize dependent (least_ac (tq_of ci) (si_se si - Z.max 1 (si_ss si) + 1)). intros a2 A.
    generalize dependent (length (encode_units dc ac (si_ss si) (si_se si) cf (fun i => if (i =? ci)%nat then cf ci y x 0 else pred i) us)).
    generalize dependent (length (encode_ac (ac ci) 0 (map (cf ci y x) (band (Z.max 1 (si_ss si)) (si_se si))))).
    generalize dependent (length (if si_ss si =? 0 then encode_dc (dc ci) (pred ci) (cf ci y x 0) else [])).
    generalize (fold_right Z.add 0 (map (least_unit f si) us)). intros. lia.
  Qed.

  (** *** All coefficients zero *)
  Inductive dotted : list bool -> Prop :=
  | dot_nil : dotted []
  | dot_zero l : dotted l -> dotted (false :: l)
  | dot_one l : dotted l -> dotted (true :: false :: l).
  Lemma dotted_app a b : dotted a -> dotted b -> dotted (a ++ b).
  Proof. intros Ha Hb. induction Ha; cbn [app]; [exact Hb|now constructor|now constructor]. Qed.
  Lemma encode_zeros d n : encode_ac (ktab d) (Z.of_nat n) [] = if (n =? 0)%nat then [] else code (ktab d) 0.
  Proof. cbn [encode_ac]. destruct n; reflexivity. Qed.
  Lemma encode_zero_ac d : forall vals run, 0 <= run -> Forall (fun v => v = 0) vals ->
    encode_ac (ktab d) run vals = if run + Z.of_nat (length vals) <=? 0 then [] else code (ktab d) 0.
  Proof.
    induction vals as [|v vals IH]; intros run Hr HF; cbn [encode_ac length].
    - rewrite Z.add_0_r. destruct (0 <? run) eqn:E, (run <=? 0) eqn:E1; (reflexivity || lia).
    - apply Forall_cons_iff in HF as [-> HF]. change (0 =? 0) with true. cbv iota. rewrite (IH (run + 1) ltac:(lia) HF).
      replace (run + Z.of_nat (S (length vals))) with (run + 1 + Z.of_nat (length vals)) by lia. reflexivity.
  Qed.
  Variable Hz : forall ci y x k, 0 <= y -> 0 <= x -> 0 <= k <= 63 -> cf ci y x k = 0.
  Variable Hwide : si_se si - Z.max 1 (si_ss si) + 1 <> 1.
  Lemma units_zero : forall us pred, (forall ci, pred ci = 0) ->
    Forall (fun u : unit_pos => nth_error (fr_comps f) (fst (fst u)) <> None) us ->
    Forall (fun u : unit_pos => 0 <= snd (fst u) /\ 0 <= snd u) us ->
    let bits := encode_units dc ac (si_ss si) (si_se si) cf pred us in
    Z.of_nat (length bits) = sum_all (map (least_unit f si) us) /\ dotted bits.
  Proof.
    induction us as [|[[ci y] x] us IH]; intros pred Hp HN HY; [split; [reflexivity|constructor]|].
    apply Forall_cons_iff in HY as [[Hy Hx] HY]. cbn [fst snd] in Hy, Hx.
    apply Forall_cons_iff in HN as [Hn HN]. cbn [fst] in Hn.
    destruct (IH (fun i => if (i =? ci)%nat then cf ci y x 0 else pred i)
      ltac:(intros i; cbv beta; destruct (i =? ci)%nat; [apply Hz; lia|apply Hp]) HN HY) as [L D]. clear IH. cbv zeta. cbn [map encode_units].
    set (r := encode_units dc ac (si_ss si) (si_se si) cf (fun i => if (i =? ci)%nat then cf ci y x 0 else pred i) us) in *. clearbody r.
    unfold sum_all in *. cbn [fold_right]. rewrite <- L. clear L.
    unfold least_unit. unfold comp_table. destruct (nth_error (fr_comps f) ci) as [c|] eqn:Ec; [|contradiction].
    fold (ktab (co_tq c)) (kdc (co_tq c)). clear Hn.
    rewrite encode_zero_ac; [|lia|].
    2:{ apply Forall_forall. intros v Hv. apply in_map_iff in Hv as (k & <- & Hin). apply band_in in Hin. apply Hz; lia. }
    rewrite map_length, band_len, Z.add_0_l, kac_eob.
    assert (Dc : (if si_ss si =? 0 then encode_dc (kdc (co_tq c)) (pred ci) (cf ci y x 0) else []) = if si_ss si =? 0 then [false; false] else []).
    { destruct (si_ss si =? 0); [|reflexivity]. rewrite (Hz ci y x 0 Hy Hx ltac:(lia)), Hp. unfold encode_dc.
      change (category (0 - 0)) with 0. rewrite kdc_zero. reflexivity. }
    rewrite Dc. clear Dc. unfold least_ac. generalize dependent (si_se si - Z.max 1 (si_ss si) + 1). intros n Hn1.
    replace (Z.max 0 n <=? 0) with (n <=? 0) by lia. replace (n =? 1) with false by lia. rewrite !app_length, !Nat2Z.inj_add. split.
    - destruct (si_ss si =? 0), (n <=? 0), (co_tq c =? 0); cbn [length]; lia.
    - apply dotted_app; [destruct (si_ss si =? 0); repeat constructor|]. apply dotted_app; [|exact D].
      destruct (n <=? 0), (co_tq c =? 0); repeat constructor.
  Qed.
End Units.

(** ** Bytes *)
Lemma pack_exact bits : Z.of_nat (length (pack bits)) = cdiv (Z.of_nat (length bits)) 8.
Proof.
  unfold pack. rewrite map_length, (group_length 8) by lia. unfold fill. rewrite app_length, repeat_length. unfold cdiv. change (Z.of_nat 8) with 8.
  pose proof (Z.mod_pos_bound (- Z.of_nat (length bits)) 8 ltac:(lia)) as M.
  pose proof (Z.div_mod (- Z.of_nat (length bits)) 8 ltac:(lia)) as D.
  generalize dependent (- Z.of_nat (length bits) mod 8). intros m M D.
  generalize dependent (- Z.of_nat (length bits) / 8). intros q D.
  replace (Z.of_nat (length bits + Z.to_nat m) + 8 - 1) with (7 + (- q) * 8) by lia. rewrite Z.div_add by lia.
  replace (Z.of_nat (length bits) + 8 - 1) with ((7 - m) + (- q) * 8) by lia. rewrite Z.div_add by lia. rewrite !Z.div_small by lia. reflexivity.
Qed.
Lemma dotted_skip : forall n l, dotted l -> dotted (skipn n l).
Proof.
  assert (T : forall l, dotted l -> dotted (tl l)). { intros l H. destruct H; cbn [tl]; [constructor|assumption|now constructor]. }
  induction n as [|n IH]; intros l H; [exact H|]. destruct l as [|b l]; [constructor|]. cbn [skipn]. apply IH. exact (T _ H).
Qed.
Lemma value_ff g : length g = 8%nat -> In false g -> value_of g <> 255.
Proof.
  intros L. do 8 (destruct g as [|[|] g]; [discriminate L| |]); (destruct g; [|discriminate L]); intros H; try (vm_compute; discriminate).
  exfalso. cbn [In] in H. repeat (destruct H as [H|H]; [discriminate H|]). destruct H.
Qed.
Lemma groups_zero : forall fuel l k, dotted l -> (k < 8)%nat -> (l = [] -> k = 0%nat) -> ((length l + k) mod 8 = 0)%nat ->
  Forall (fun g => value_of g <> 255) (group fuel 8 (l ++ repeat true k)).
Proof.
  induction fuel as [|fuel IH]; intros l k HD Hk H0 Hm; [constructor|]. cbn [group].
  destruct l as [|b l0] eqn:El. { rewrite H0 by reflexivity. constructor. }
  rewrite <- El in *. assert (Hn : l <> []) by (rewrite El; discriminate).
  assert (Hl : (1 <= length l)%nat) by (rewrite El; cbn; lia).
  assert (Hge : (8 <= length (l ++ repeat true k))%nat).
  { rewrite app_length, repeat_length. pose proof (Nat.div_mod (length l + k) 8 ltac:(lia)). lia. }
  destruct (l ++ repeat true k) as [|a t] eqn:Ea; [cbn in Hge; lia|]. rewrite <- Ea in *. clear a t Ea.
  constructor.
  - apply value_ff; [rewrite firstn_length; lia|]. subst l. inversion HD; subst; cbn; tauto.
  - destruct (Nat.le_gt_cases 8 (length l)) as [G|G].
    + rewrite skipn_app. replace (8 - length l)%nat with 0%nat by lia. change (skipn 0 (repeat true k)) with (repeat true k).
      destruct (Nat.eq_dec (length l) 8) as [E8|E8].
      * rewrite skipn_all2 by lia. rewrite E8 in Hm.
        assert (k = 0)%nat as -> by (pose proof (Nat.div_mod (8 + k) 8 ltac:(lia)); lia). destruct fuel; constructor.
      * apply IH; [now apply dotted_skip|exact Hk| |].
        -- intros E. apply (f_equal (@length bool)) in E. rewrite skipn_length in E. cbn [length] in E. lia.
        -- rewrite skipn_length. replace (length l + k)%nat with (length l - 8 + k + 1 * 8)%nat in Hm by lia. now rewrite Nat.mod_add in Hm by lia.
    + rewrite skipn_all2. { destruct fuel; constructor. }
      rewrite app_length, repeat_length in Hge |- *. pose proof (Nat.div_mod (length l + k) 8 ltac:(lia)). lia.
Qed.
Lemma stuffed_none d : Forall (fun b => b <> 255) d -> stuffed d = d.
Proof.
  induction d as [|b d IH]; intros H; [reflexivity|]. apply Forall_cons_iff in H as [Hb H]. cbn [stuffed flat_map].
  replace (b =? 255) with false by lia. cbn [app]. f_equal. exact (IH H).
Qed.
Lemma dotted_pack bits : dotted bits -> stuffed (pack bits) = pack bits.
Proof.
  intros H. apply stuffed_none. unfold pack, fill.
  pose proof (Z.mod_pos_bound (- Z.of_nat (length bits)) 8 ltac:(lia)) as M.
  pose proof (Z.div_mod (- Z.of_nat (length bits)) 8 ltac:(lia)) as D.
  set (k := Z.to_nat (- Z.of_nat (length bits) mod 8)).
  pose proof (groups_zero (length (bits ++ repeat true k)) bits k H ltac:(lia)) as G. rewrite Forall_map.
  apply G.
  - intros ->. reflexivity.
  - apply Nat2Z.inj. rewrite Nat2Z.inj_mod, Nat2Z.inj_add. change (Z.of_nat 8) with 8. change (Z.of_nat 0) with 0. unfold k. rewrite Z2Nat.id by lia.
    replace (Z.of_nat (length bits) + - Z.of_nat (length bits) mod 8) with (0 + (- (- Z.of_nat (length bits) / 8)) * 8) by lia. now rewrite Z.mod_add by lia.
Qed.
Lemma stuffed_longer d : (length d <= length (stuffed d))%nat.
Proof.
  induction d as [|b d IH]; [cbn; lia|]. unfold stuffed in *. cbn [flat_map length]. rewrite app_length. destruct (b =? 255); cbn [length]; lia.
Qed.
Lemma coded_exact : forall ds m, ds <> [] ->
  Z.of_nat (length (coded_data m ds)) = sum_all (map (fun d => Z.of_nat (length (stuffed d))) ds) + 2 * (Z.of_nat (length ds) - 1).
Proof.
  induction ds as [|d ds IH]; intros m Hn; [contradiction|]. destruct ds as [|d2 ds].
  - cbn [coded_data map length]. unfold sum_all. cbn [fold_right]. lia.
  - specialize (IH (m + 1) ltac:(discriminate)). change (coded_data m (d :: d2 :: ds)) with (stuffed d ++ [255; 208 + m mod 8] ++ coded_data (m + 1) (d2 :: ds)).
    generalize dependent (coded_data (m + 1) (d2 :: ds)). intros c IH. rewrite !app_length.
    change (sum_all (map (fun d => Z.of_nat (length (stuffed d))) (d :: d2 :: ds)))
      with (Z.of_nat (length (stuffed d)) + sum_all (map (fun d => Z.of_nat (length (stuffed d))) (d2 :: ds))).
    generalize dependent (sum_all (map (fun d => Z.of_nat (length (stuffed d))) (d2 :: ds))). intros a IH. cbn [length] in *. lia.
Qed.
Lemma sum_cons a l : sum_all (a :: l) = a + sum_all l.
Proof. reflexivity. Qed.
Lemma sum_le {X} (g k : X -> Z) l : (forall x, In x l -> g x <= k x) -> sum_all (map g l) <= sum_all (map k l).
Proof. exact (add_le g k l). Qed.
Lemma sum_eq {X} (g k : X -> Z) l : (forall x, In x l -> g x = k x) -> sum_all (map g l) = sum_all (map k l).
Proof. intros H. f_equal. apply map_ext_in. exact H. Qed.

(** ** Files *)
Section File.
  Variable T : transform.
  Variable s : settings.
  Variable color : jcolor.
  Variable pl : planes.
  Variable w h : Z.
  Variable Hw : 1 <= w <= 65535.
  Variable Hh : 1 <= h <= 65535.
  Variable Hs : settings_wf s.
  Let f := frame_for s color w h.
  Let cs := comps_of (s_sampling s) color.
  Let cf := coefficients_of T s color pl w h.
  Notation t := annexK_tables.
  Notation code_of := (interval_code T t s color pl w h).

  Lemma unit_comp si us u : In si (scan_script s color) -> In us (mcus_of f si) -> In u us -> nth_error (fr_comps f) (fst (fst u)) <> None.
  Proof.
    intros Hsi Hus Hu. unfold mcus_of in Hus.
    set (l := flat_map (fun ci => match nth_error (fr_comps f) ci with Some c => [(ci, c)] | None => [] end) (si_comps si)) in *.
    assert (L : forall ci c, In (ci, c) l -> nth_error (fr_comps f) ci = Some c).
    { intros ci c H. unfold l in H. apply in_flat_map in H as (i & _ & H). destruct (nth_error (fr_comps f) i) as [c'|] eqn:E; [|destruct H].
      destruct H as [[= <- <-]|[]]. exact E. }
    clearbody l.
    assert (G : forall cs', (forall ci c, In (ci, c) cs' -> nth_error (fr_comps f) ci = Some c) -> In us (interleaved_mcus f cs') -> nth_error (fr_comps f) (fst (fst u)) <> None).
    { intros cs' L' H. unfold interleaved_mcus in H. apply in_flat_map in H as (my & _ & H). apply in_map_iff in H as (mx & <- & _).
      apply in_flat_map in Hu as ([ci c] & Hc & Hu). apply in_flat_map in Hu as (v & _ & Hu). apply in_map_iff in Hu as (hh & <- & _).
      cbn [fst]. rewrite (L' ci c Hc). discriminate. }
    destruct l as [|[ci c] [|p l]].
    - exact (G [] L Hus).
    - cbn [scan_mcus] in Hus. unfold single_mcus in Hus. apply in_flat_map in Hus as (y & _ & Hus). apply in_map_iff in Hus as (x & <- & _).
      destruct Hu as [<-|[]]. cbn [fst]. rewrite (L ci c ltac:(now left)). discriminate.
    - exact (G _ L Hus).
  Qed.
  Lemma interval_comps si mcus : In si (scan_script s color) -> In mcus (intervals (s_restart s) (mcus_of f si)) ->
    Forall (fun u : unit_pos => nth_error (fr_comps f) (fst (fst u)) <> None) (concat mcus).
  Proof.
    intros Hsi Hm. pose proof (intervals_in _ _ _ Hm) as Hi. apply Forall_forall. intros u Hu. apply in_concat in Hu as (us & Hus & Hu).
    exact (unit_comp si us u Hsi (Hi _ Hus) Hu).
  Qed.

  Definition std_data (si : scan_info) : list (list Z) := scan_data t f (s_restart s) cf si.
  Lemma std_data_eq si : std_data si = map (fun mcus => pack (code_of si mcus)) (intervals (s_restart s) (mcus_of f si)).
  Proof. reflexivity. Qed.
  Lemma scan_size si : In si (scan_script s color) ->
    Z.of_nat (length (render (Scan (scan_header f si) (std_data si))))
    = 8 + 2 * Z.of_nat (length (si_comps si)) + sum_all (map (fun mcus => Z.of_nat (length (stuffed (pack (code_of si mcus))))) (intervals (s_restart s) (mcus_of f si)))
      + 2 * (Z.of_nat (length (intervals (s_restart s) (mcus_of f si))) - 1).
  Proof.
    intros Hin.
    assert (N : std_data si <> []).
    { unfold std_data, scan_data. apply map_nonempty, intervals_nonempty, mcus_nonempty; try assumption. now apply script_comps. }
    assert (H : length (scan_header f si) = (4 + 2 * length (si_comps si))%nat).
    { unfold scan_header. rewrite !app_length. cbn [length]. rewrite (flat_map_len _ 2); [lia|].
      intros ci Hci. pose proof (script_comps s color si Hin ci Hci) as Hlt.
      destruct (nth_error (fr_comps f) ci) as [c|] eqn:E; [reflexivity|]. apply nth_error_None in E. unfold f in E. cbn [frame_for fr_comps] in E. lia. }
    cbn [render]. unfold length_field. rewrite !app_length, H. cbn [length].
    pose proof (coded_exact (std_data si) 0 N) as C. rewrite std_data_eq, map_map, map_length in C. rewrite <- std_data_eq in C. rewrite !Nat2Z.inj_add, C. lia.
  Qed.
  Lemma sof_len : length (render (sof (frame_for s color w h))) = (10 + 3 * length (comps_of (s_sampling s) color))%nat.
  Proof.
    unfold sof. cbn [render]. unfold length_field. rewrite !app_length. cbn [length]. rewrite !app_length.
    rewrite (flat_map_len _ 3) by reflexivity. cbn [frame_for fr_comps]. unfold u16_bytes. cbn [length]. lia.
  Qed.
  Lemma std_size : Z.of_nat (length (jpeg_file_with T t s color pl w h))
    = std_header s color + sum_all (map (fun si => Z.of_nat (length (render (Scan (scan_header f si) (std_data si))))) (scan_script s color)) + 2.
  Proof.
    unfold jpeg_file_with. fold f.
    change (fun (ci : nat) (y x k : Z) => match nth_error (fr_comps f) ci with
      | Some c => expected T s color pl w h ci c y x k | None => 0 end) with cf.
    unfold render_file, file_parts. rewrite !app_length, !flat_map_app, !app_length. cbn [length].
    unfold std_header. cbv zeta. fold f cs.
    assert (E1 : Z.of_nat (length (flat_map render (map (fun '(nr, data) => Segment (224 + nr) data) (apps_for s color))))
      = sum_all (map (fun a => 4 + Z.of_nat (length (snd a))) (apps_for s color))).
    { generalize (apps_for s color). intros l. induction l as [|[nr d] l IH]; [reflexivity|]. cbn [map flat_map]. rewrite app_length, Nat2Z.inj_add, IH.
      rewrite sum_cons. generalize (sum_all (map (fun a : Z * list Z => 4 + Z.of_nat (length (snd a))) l)). intros q. cbn [snd].
      cbn [render]. unfold length_field. rewrite !app_length. cbn [length]. lia. }
    assert (E2 : Z.of_nat (length (flat_map render [sof f; dqt s 0; dqt s 1; dht 0 0 (tb_dc t 0); dht 1 0 (tb_ac t 0)]))
      = 10 + 3 * Z.of_nat (length cs) + 2 * 69 + 216).
    { cbn [flat_map]. rewrite !app_length. unfold f. rewrite sof_len, !dqt_length. fold cs.
      change (length (render (dht 0 0 (tb_dc t 0)))) with 33%nat. change (length (render (dht 1 0 (tb_ac t 0)))) with 183%nat. cbn [length]. lia. }
    assert (E3 : Z.of_nat (length (flat_map render (if (3 <=? length (fr_comps f))%nat then [dht 0 1 (tb_dc t 1); dht 1 1 (tb_ac t 1)] else [])))
      = (if 3 <=? Z.of_nat (length cs) then 2 else 1) * 216 - 216).
    { change (fr_comps f) with cs. 
      destruct (3 <=? length cs)%nat eqn:E; replace (3 <=? Z.of_nat (length cs)) with (3 <=? length cs)%nat by lia; rewrite E; reflexivity. }
    assert (E4 : Z.of_nat (length (flat_map render (dri (s_restart s)))) = if s_restart s =? 0 then 0 else 6).
    { unfold dri. destruct (s_restart s =? 0); reflexivity. }
    assert (E5 : Z.of_nat (length (flat_map render (map (fun si => Scan (scan_header f si) (scan_data t f (s_restart s) cf si)) (scan_script s color))))
      = sum_all (map (fun si => Z.of_nat (length (render (Scan (scan_header f si) (std_data si))))) (scan_script s color))).
    { generalize (scan_script s color). intros l. induction l as [|si l IH]; [reflexivity|].
      change (sum_all (map (fun si => Z.of_nat (length (render (Scan (scan_header f si) (std_data si))))) (si :: l)))
        with (Z.of_nat (length (render (Scan (scan_header f si) (std_data si)))) + sum_all (map (fun si => Z.of_nat (length (render (Scan (scan_header f si) (std_data si))))) l)).
      cbn [map flat_map]. rewrite app_length, Nat2Z.inj_add, IH. reflexivity. }
    rewrite !Nat2Z.inj_add, E1, E2, E3, E4, E5. change (4 + 1 + 16 + 12 + (4 + 1 + 16 + 162)) with 216.
    generalize (sum_all (map (fun si => Z.of_nat (length (render (Scan (scan_header f si) (std_data si))))) (scan_script s color))).
    generalize (sum_all (map (fun a => 4 + Z.of_nat (length (snd a))) (apps_for s color))).
    generalize (if s_restart s =? 0 then 0 else 6). generalize ((if 3 <=? Z.of_nat (length cs) then 2 else 1) * 216). clear. intros. lia.
  Qed.

  (** Any image *)
  Lemma at_least : (forall ci y x, 0 <= y -> 0 <= x -> unit_small cf (ci, y, x)) ->
    min_size s color w h <= Z.of_nat (length (jpeg_file_with T t s color pl w h)).
  Proof.
    intros Hcf. rewrite std_size. unfold min_size. fold f.
    assert (X : sum_all (map (least_scan f (s_restart s)) (scan_script s color))
      <= sum_all (map (fun si => Z.of_nat (length (render (Scan (scan_header f si) (std_data si))))) (scan_script s color))).
    { apply sum_le. intros si Hin. rewrite scan_size by exact Hin. unfold least_scan. cbv zeta.
      assert (Y : sum_all (map (least_interval f si) (intervals (s_restart s) (mcus_of f si)))
        <= sum_all (map (fun mcus => Z.of_nat (length (stuffed (pack (code_of si mcus))))) (intervals (s_restart s) (mcus_of f si)))).
      { apply sum_le. intros mcus Hm. pose proof (intervals_in _ _ _ Hm) as Hi.
        destruct (script_band s color si Hs Hin) as (B1 & B2 & _).
        assert (HF : Forall (unit_small cf) (concat mcus)).
        { apply Forall_forall. intros [[ci y] x] Hx. apply in_concat in Hx as (us & Hus & Hx).
          destruct (unit_nonneg T s color pl w h Hcf si us _ (Hi _ Hus) Hx). now apply Hcf. }
        pose proof (units_least f cf si B1 B2 (concat mcus) (fun _ => 0) ltac:(intros; lia) HF (interval_comps si mcus Hin Hm)) as U.
        fold (code_of si mcus) in U. pose proof (stuffed_longer (pack (code_of si mcus))) as L. pose proof (pack_exact (code_of si mcus)) as Pk.
        unfold least_interval.
        assert (cdiv (sum_all (map (least_unit f si) (concat mcus))) 8 <= cdiv (Z.of_nat (length (code_of si mcus))) 8).
        { unfold cdiv. apply Z.div_le_mono; [lia|]. unfold interval_code. fold f cf. lia. }
        lia. }
      lia. }
    lia.
  Qed.
  (** Zero coefficients *)
  Lemma no_more : (forall ci y x k, 0 <= y -> 0 <= x -> 0 <= k <= 63 -> cf ci y x k = 0) ->
    (forall si, In si (scan_script s color) -> si_se si - Z.max 1 (si_ss si) + 1 <> 1) ->
    Z.of_nat (length (jpeg_file_with T t s color pl w h)) = min_size s color w h.
  Proof.
    intros Hz Hb. rewrite std_size. unfold min_size. fold f. f_equal. f_equal. apply sum_eq. intros si Hin. rewrite scan_size by exact Hin.
    unfold least_scan. cbv zeta. f_equal. f_equal. apply sum_eq. intros mcus Hm.
    destruct (script_band s color si Hs Hin) as (B1 & B2 & _).
    assert (Hcf : forall ci y x, 0 <= y -> 0 <= x -> unit_small cf (ci, y, x)).
    { intros ci y x Hy Hx. split; [rewrite Hz by lia; lia|]. intros k Hk. rewrite Hz by lia. reflexivity. }
    assert (HY : Forall (fun u : unit_pos => 0 <= snd (fst u) /\ 0 <= snd u) (concat mcus)).
    { pose proof (intervals_in _ _ _ Hm) as Hi. apply Forall_forall. intros u Hu. apply in_concat in Hu as (us & Hus & Hu).
      exact (unit_nonneg T s color pl w h Hcf si us u (Hi _ Hus) Hu). }
    destruct (units_zero f cf si B1 B2 Hz (Hb si Hin) (concat mcus) (fun _ => 0) ltac:(reflexivity) (interval_comps si mcus Hin Hm) HY) as [L D].
    fold (code_of si mcus) in L, D. change (dotted (code_of si mcus)) in D.
    rewrite (dotted_pack _ D), pack_exact. unfold least_interval. f_equal. exact L.
  Qed.
  Lemma wide_script : wide_bands s -> forall si, In si (scan_script s color) -> si_se si - Z.max 1 (si_ss si) + 1 <> 1.
  Proof.
    intros Hwd si Hsi. pose proof (sw_scans _ Hs) as Hn. unfold wide_bands in Hwd. unfold scan_script in Hsi. destruct (factors (s_sampling s)) as [hh vv].
    assert (S1 : forall b, In si (single_scans (length (comps_of (s_sampling s) color)) b) -> (si_ss si, si_se si) = b).
    { intros b H. unfold single_scans in H. apply in_map_iff in H as (ci & <- & _). cbn [si_ss si_se]. now destruct b. }
    destruct (s_scans s) as [n|].
    - apply in_app_iff in Hsi as [H|H]. { apply S1 in H. injection H as -> ->. discriminate. }
      apply in_flat_map in H as (b & Hb & H). apply S1 in H.
      assert (A : forallb (fun n => forallb (fun b => negb (snd b - Z.max 1 (fst b) + 1 =? 1)) (spectral_bands (n + 2))) (upto 21) = true) by (vm_compute; reflexivity).
      rewrite forallb_forall in A. specialize (A (n - 2)). rewrite forallb_forall in A.
      assert (I : In (n - 2) (upto 21)). { unfold upto. apply in_map_iff. exists (Z.to_nat (n - 2)). split; [lia|]. apply in_seq. lia. }
      specialize (A I b). replace (n - 2 + 2) with n in A by lia. specialize (A Hb). rewrite <- H in A. cbn [fst snd] in A. lia.
    - destruct (negb (s_optimize s) && (hh <=? 2) && (vv <=? 2)).
      + destruct Hsi as [<-|[]]. cbn [si_ss si_se]. lia.
      + apply S1 in Hsi. injection Hsi as -> ->. lia.
  Qed.
End File.

(** ** Mid-grey *)
Lemma sum8_zero g : (forall i, g i = 0) -> sum8 g = 0.
Proof. intros H. unfold sum8. rewrite !H. reflexivity. Qed.

Lemma int_zero g v u : (forall y x, g y x = 0) -> int_dct g v u = 0.
Proof.
  intros H. unfold int_dct. rewrite sum8_zero; [reflexivity|]. intros y. unfold row_dct. rewrite sum8_zero; [apply Z.mul_0_r|]. intros x. rewrite H. apply Z.mul_0_r.
Qed.
Lemma avx2_zero g v u : (forall y x, g y x = 0) -> avx2_dct g v u = 0.
Proof.
  intros H. unfold avx2_dct. rewrite int_zero by exact H. destruct (unrounded v u); [|reflexivity]. rewrite sum8_zero; [reflexivity|].
  intros y. unfold row_dct. rewrite sum8_zero; [apply Z.mul_0_r|]. intros x. rewrite H. apply Z.mul_0_r.
Qed.
Lemma grey_zero T s color pl w h : 1 <= w -> 1 <= h -> (forall g v u, (forall y x, g y x = 0) -> T g v u = 0) ->
  mid_grey (length (fr_comps (frame_for s color w h))) pl w h ->
  forall ci y x k, 0 <= y -> 0 <= x -> 0 <= k <= 63 -> coefficients_of T s color pl w h ci y x k = 0.
Proof.
  intros Hw Hh HT Hg ci y x k Hy Hx Hk. unfold coefficients_of. destruct (nth_error (fr_comps (frame_for s color w h)) ci) as [c|] eqn:E; [|reflexivity].
  unfold expected. destruct (zigzag_pos k) as [v u]. rewrite HT; [reflexivity|]. intros yy xx. unfold block_sample.
  assert (Hci : (ci < length (fr_comps (frame_for s color w h)))%nat) by (apply nth_error_Some; rewrite E; discriminate).
  pose proof (nth_error_In _ _ E) as Hin. apply (comps_pos (s_sampling s) color) in Hin as [Hch Hcv].
  rewrite Hg; [lia|exact Hci| |].
  - assert (0 <= (8 * y + Z.of_nat yy) * (vmax (frame_for s color w h) / co_v c)).
    { apply Z.mul_nonneg_nonneg; [lia|]. apply Z.div_pos; [|lia]. pose proof (vmax_pos (frame_for s color w h)). lia. }
    lia.
  - assert (0 <= (8 * x + Z.of_nat xx) * (hmax (frame_for s color w h) / co_h c)).
    { apply Z.mul_nonneg_nonneg; [lia|]. apply Z.div_pos; [|lia]. pose proof (hmax_pos (frame_for s color w h)). lia. }
    lia.
Qed.
