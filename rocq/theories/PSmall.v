(** The entropy-coded data of a file with optimized tables is as small as with any other tables. *)
From Verif Require Import T81 SFile PSegments PSos PFile PTop PEncode PApi POptimal.
From Verif Require Export PPlat SSize.
From Coq Require Import ZifyBool ZifyNat.

Definition add (l : list Z) : Z := fold_right Z.add 0 l.
Lemma add_cons x l : add (x :: l) = x + add l. Proof. reflexivity. Qed.
Lemma add_app a b : add (a ++ b) = add a + add b.
Proof. induction a as [|x a IH]; [reflexivity|]. cbn [app]. rewrite !add_cons, IH. lia. Qed.
Lemma add_map_add {X} (f g : X -> Z) l : add (map (fun x => f x + g x) l) = add (map f l) + add (map g l).
Proof. induction l as [|x l IH]; [reflexivity|]. cbn [map]. rewrite !add_cons, IH. lia. Qed.

(** Bits of code words for a list of symbols *)
Definition sbits (tb : table) (l : list Z) : Z := add (map (fun s => Z.of_nat (length (code tb s))) l).
Lemma sbits_app tb a b : sbits tb (a ++ b) = sbits tb a + sbits tb b.
Proof. unfold sbits. now rewrite map_app, add_app. Qed.
Lemma sbits_cons tb s l : sbits tb (s :: l) = Z.of_nat (length (code tb s)) + sbits tb l. Proof. reflexivity. Qed.
Lemma sbits_flat {X} tb (g : X -> list Z) l : sbits tb (flat_map g l) = add (map (fun x => sbits tb (g x)) l).
Proof. induction l as [|x l IH]; [reflexivity|]. cbn [flat_map map]. now rewrite sbits_app, IH. Qed.

(** ** The price of a table for the tally of a list *)
Lemma code_absent tb s : ~ In s (map snd tb) -> code tb s = [].
Proof.
  intros H. unfold code. destruct (find (fun e => snd e =? s) tb) as [[c v]|] eqn:E; [|reflexivity].
  apply find_some in E as [E1 E2]. cbn [snd] in E2. exfalso. apply H. apply in_map_iff. exists (c, v). split; [cbn; lia|exact E1].
Qed.
Lemma code_present tb s : code tb s <> [] -> In s (map snd tb).
Proof.
  intros H. destruct (in_dec Z.eq_dec s (map snd tb)) as [Hi|Hi]; [exact Hi|]. destruct H. now apply code_absent.
Qed.
Lemma code_bits_cons f e tb : code_bits f (e :: tb) = nth (Z.to_nat (snd e)) f 0 * Z.of_nat (length (fst e)) + code_bits f tb.
Proof. reflexivity. Qed.
Lemma code_cons e tb s : code (e :: tb) s = if snd e =? s then fst e else code tb s.
Proof. unfold code. cbn [find]. destruct e as [w v]. cbn [snd fst]. now destruct (v =? s). Qed.
Lemma code_bits_bump tb : forall f s, NoDup (map snd tb) -> Forall (fun e => 0 <= snd e < 256) tb -> hok f -> sym s ->
  code_bits (bump f s) tb = code_bits f tb + Z.of_nat (length (code tb s)).
Proof.
  induction tb as [|e tb IH]; intros f s Hn Hb Hf Hs; [reflexivity|].
  inversion Hn as [|? ? Hx Hn']; subst. inversion Hb as [|? ? He Hb']; subst.
  rewrite !code_bits_cons, IH, code_cons, nth_bump by assumption. unfold sym in Hs. destruct (snd e =? s) eqn:E.
  - assert (snd e = s) by lia. subst s. rewrite (code_absent tb (snd e) Hx), Nat.eqb_refl. cbn [length]. lia.
  - replace (Z.to_nat (snd e) =? Z.to_nat s)%nat with false by lia. lia.
Qed.
Lemma code_bits_tally tb : NoDup (map snd tb) -> Forall (fun e => 0 <= snd e < 256) tb -> forall l f, hok f -> Forall sym l ->
  code_bits (tally f l) tb = code_bits f tb + sbits tb l.
Proof.
  intros Hn Hb. induction l as [|s l IH]; intros f Hf Hl; [cbn; lia|]. inversion Hl as [|? ? Hs Hl']; subst.
  change (tally f (s :: l)) with (tally (bump f s) l). rewrite IH by (try apply bump_hok; assumption).
  rewrite code_bits_bump, sbits_cons by assumption. lia.
Qed.
Lemma code_bits_init tb : Forall (fun e => 0 <= snd e < 256) tb -> code_bits init_freq tb = 0.
Proof.
  destruct (init_hok) as (_ & _ & _ & Hz). induction 1 as [|e tb He Hb IH]; [reflexivity|].
  rewrite code_bits_cons, IH, Hz by lia. lia.
Qed.
Lemma table_facts counts vals tb : build_table counts vals = Some tb -> Forall (fun v => 0 <= v < 256) vals ->
  NoDup (map snd tb) /\ Forall (fun e => 0 <= snd e < 256) tb /\ map snd tb = vals.
Proof.
  intros Hb Hv. pose proof (build_table_inv _ _ _ Hb) as (_ & Hnd & _). apply table_kraft in Hb as (_ & _ & <-).
  split; [exact Hnd|]. split; [|reflexivity]. rewrite Forall_forall in Hv |- *. intros e He. apply Hv, in_map, He.
Qed.

(** One optimized table against any other. *)
Lemma table_best P l t tb counts vals tb' : Forall small l -> l <> [] -> 1 + Z.of_nat (length l) < 4294967296 ->
  table_for_syms P l t tb -> 1 + Z.of_nat (length l) < 4181 \/ nth 15 (h_length t) 0 = 0 ->
  build_table counts vals = Some tb' -> Forall (fun v => 0 <= v < 256) vals -> (forall s, In s l -> code tb' s <> []) ->
  sbits tb l + longest tb <= sbits tb' l + longest tb'.
Proof.
  intros Hs Hn Hl (Em & Hv & Hc) Hsm Hb' Hv' Hcov.
  destruct init_hok as (I1 & I2 & I3 & I4). pose proof (small_sym l Hs) as Hy.
  destruct (tally_ok l init_freq I1 Hy) as [T1 T2]. pose proof (tally_reserved l init_freq I1 Hy) as T3.
  assert (Ho : forall v, occurs (tally init_freq l) v -> In v l).
  { intros v [Hr Hp]. destruct (tally_pos l init_freq (Z.to_nat v) I1 Hy Hp) as [H|H].
    - rewrite I4 in H by lia. lia.
    - now rewrite Z2Nat.id in H by lia. }
  assert (Hu : forall v, In v (used (tally init_freq l)) <-> In v l).
  { intros v. unfold used. rewrite filter_In, in_zrange. split.
    - intros [Hr Hp]. apply Ho. split; [exact Hr|]. unfold zn in Hp. lia.
    - intros Hi. pose proof (tally_in l init_freq v I1 Hy Hi). rewrite Forall_forall in Hy. pose proof (Hy v Hi) as Hv0. unfold sym in Hv0. lia. }
  assert (H3 : (1 <= length (used (tally init_freq l)) <= 254)%nat).
  { split.
    + destruct l as [|v l']; [contradiction|]. assert (In v (used (tally init_freq (v :: l')))) by (apply Hu; now left).
      destruct (used _); [contradiction|cbn [length]; lia].
    + apply small_list; [apply NoDup_filter, zrange_NoDup|]. apply Forall_forall. intros v Hv0. apply Hu in Hv0.
      rewrite Forall_forall in Hs. now apply Hs. }
  destruct (table_facts _ _ _ Hb' Hv') as (N' & B' & M'). destruct Hv as [Hb _ Hvb].
  destruct (table_facts _ _ _ Hb Hvb) as (N & B & _).
  pose proof (optimal P (tally init_freq l) t tb (ho_len _ T1) (ho_nn _ T1)
    ltac:(fold (tot (tally init_freq l)); lia) ltac:(rewrite T3; exact I3) H3 Em Hb
    ltac:(fold (tot (tally init_freq l)); rewrite T2, I2; exact Hsm) counts vals tb') as Opt.
  rewrite !code_bits_tally, !code_bits_init in Opt by assumption. rewrite !Z.add_0_l in Opt. apply Opt.
  constructor; [exact Hb'|exact Hv'|]. intros v Hv0. rewrite <- M'. apply code_present, Hcov, Ho, Hv0.
Qed.

(** ** Bits and symbols *)
Ltac atoms := repeat match goal with |- context [length ?x] => generalize (length x); intro | |- context [add ?x] => generalize (add x); intro end; clear; lia.
From Coq Require Import Permutation.
Notation symbol := (nat * Z * Z)%type.
Definition weight (dc ac : nat -> table) (s : symbol) : Z :=
  let '(ci, class, v) := s in Z.of_nat (length (code (if class =? 0 then dc ci else ac ci) v)).
Notation none := (fun _ : nat => @nil (list bool * Z)).
Lemma encode_ac_len tb ci dc : forall vals run,
  Z.of_nat (length (encode_ac tb run vals))
  = Z.of_nat (length (encode_ac [] run vals)) + add (map (weight dc (fun _ => tb)) (map (fun v => (ci, 1, v)) (ac_symbols run vals))).
Proof.
  induction vals as [|v vals IH]; intros run; cbn [encode_ac ac_symbols].
  - destruct (0 <? run); cbn; lia.
  - destruct (v =? 0); [apply IH|].
    rewrite !map_app, add_app, !app_length. cbn [map]. rewrite add_cons. cbn [weight]. change (1 =? 0) with false. cbv iota.
    rewrite !Nat2Z.inj_add, IH.
    assert (C : forall n t, Z.of_nat (length (concat (repeat (code t 240) n))) = Z.of_nat n * Z.of_nat (length (code t 240))).
    { intros n t. induction n as [|n IHn]; [reflexivity|]. cbn [repeat concat]. rewrite app_length, Nat2Z.inj_add, IHn. lia. }
    assert (W : forall n, add (map (weight dc (fun _ => tb)) (map (fun s => (ci, 1, s)) (repeat 240 n))) = Z.of_nat n * Z.of_nat (length (code tb 240))).
    { induction n as [|n IHn]; [reflexivity|]. cbn [repeat map]. rewrite add_cons, IHn. cbn [weight]. change (1 =? 0) with false. cbv iota. lia. }
    rewrite !C, W. change (length (code [] 240)) with 0%nat. change (code [] (16 * (run mod 16) + category v)) with (@nil bool). cbn [length].
    change (Z.of_nat 0) with 0. rewrite Z.mul_0_r. set (p := _ * Z.of_nat (length (code tb 240))). clearbody p. set (q := length (code tb _)). set (r := add _). set (u := length (encode_ac [] 0 vals)). set (z := length (extra v)). clearbody q r u z. clear. lia.
Qed.
Lemma weight_ac dc ac ci l : map (weight dc ac) (map (fun v => (ci, 1, v)) l) = map (weight dc (fun _ => ac ci)) (map (fun v => (ci, 1, v)) l).
Proof. rewrite !map_map. reflexivity. Qed.
Lemma encode_units_len dc ac ss se cf : forall us pred,
  Z.of_nat (length (encode_units dc ac ss se cf pred us))
  = Z.of_nat (length (encode_units none none ss se cf pred us)) + add (map (weight dc ac) (unit_symbols ss se cf pred us)).
Proof.
  induction us as [|[[ci y] x] us IH]; intros pred; [reflexivity|]. cbn [encode_units unit_symbols].
  rewrite !map_app, !add_app, !app_length, !Nat2Z.inj_add, IH, (encode_ac_len (ac ci) ci dc), <- weight_ac.
  destruct (ss =? 0).
  - unfold encode_dc. rewrite !app_length. cbn [map]. rewrite add_cons. cbn [weight]. change (0 =? 0) with true. cbv iota beta.
    change (code [] (category (cf ci y x 0 - pred ci))) with (@nil bool). change (add []) with 0. cbn [length]. atoms.
  - cbn [length map]. change (add []) with 0. atoms.
Qed.

(** The symbols of a scan and of a file *)
Definition scan_symbols (f : frame) (ri : Z) (cf : coefficients) (si : scan_info) : list symbol :=
  flat_map (fun mcus => unit_symbols (si_ss si) (si_se si) cf (fun _ => 0) (concat mcus)) (intervals ri (mcus_of f si)).
Definition plain_bits (f : frame) (ri : Z) (cf : coefficients) (si : scan_info) : Z :=
  add (map (fun mcus => Z.of_nat (length (encode_units none none (si_ss si) (si_se si) cf (fun _ => 0) (concat mcus))))
           (intervals ri (mcus_of f si))).
Lemma add_flat {X Y} (g : Y -> Z) (h : X -> list Y) l : add (map g (flat_map h l)) = add (map (fun x => add (map g (h x))) l).
Proof. induction l as [|x l IH]; [reflexivity|]. cbn [flat_map map]. now rewrite map_app, add_app, add_cons, IH. Qed.
Definition fweight (f : frame) (t : tables) := weight (comp_table f (tb_dc t)) (comp_table f (tb_ac t)).
Lemma scan_bits_eq t f ri cf si : scan_bits t f ri cf si = plain_bits f ri cf si + add (map (fweight f t) (scan_symbols f ri cf si)).
Proof.
  unfold scan_bits, plain_bits, scan_symbols. rewrite add_flat, <- add_map_add. unfold add. f_equal.
  apply map_ext. intros mcus. apply encode_units_len.
Qed.
Lemma entropy_bits_eq T t s color pl w h : let f := frame_for s color w h in let cf := coefficients_of T s color pl w h in
  entropy_bits T t s color pl w h
  = add (map (plain_bits f (s_restart s) cf) (scan_script s color))
    + add (map (fweight f t) (flat_map (scan_symbols f (s_restart s) cf) (scan_script s color))).
Proof.
  intros f cf. unfold entropy_bits. rewrite add_flat, <- add_map_add. unfold add. f_equal. apply map_ext. intros si. apply scan_bits_eq.
Qed.
Lemma covers_eq T t s color pl w h : let f := frame_for s color w h in let cf := coefficients_of T s color pl w h in
  covers T t s color pl w h -> forall ci class v, In (ci, class, v) (flat_map (scan_symbols f (s_restart s) cf) (scan_script s color)) ->
    code (comp_table f (if class =? 0 then tb_dc t else tb_ac t) ci) v <> [].
Proof.
  intros f cf C ci class v Hi. apply in_flat_map in Hi as (si & Hsi & Hi). unfold scan_symbols in Hi.
  apply in_flat_map in Hi as (mcus & Hm & Hi). exact (C si mcus ci class v Hsi Hm Hi).
Qed.

(** ** The symbols of one component *)
Lemma ac_symbols_eq : forall vals run, ac_symbols run vals = ac_syms vals run.
Proof.
  induction vals as [|v vals IH]; intros run; cbn [ac_symbols ac_syms]; [reflexivity|].
  rewrite !IH. destruct (v =? 0); [reflexivity|]. reflexivity.
Qed.
Definition dcs_of (ci : nat) (l : list Z) : list symbol := map (fun v => (ci, 0, v)) l.
Definition acs_of (ci : nat) (l : list Z) : list symbol := map (fun v => (ci, 1, v)) l.
Definition band_syms (b : Z * Z) (blocks : list (list Z)) : list Z := flat_map (fun blk => ac_syms (slice blk (fst b) (snd b)) 0) blocks.
Section Comp.
  Variable ci : nat.
  Variable cf : coefficients.
  Notation fine us := (Forall (fun u => ci_of u = ci /\ agrees cf u) us).

  Lemma dc_unit_symbols us : fine us -> forall pred,
    unit_symbols 0 0 cf pred (map fst us) = dcs_of ci (dc_syms (map snd us) (pred ci)).
  Proof.
    induction us as [|[[[c y] x] b] us IH]; intros HF pred; [reflexivity|].
    apply Forall_cons_iff in HF as [[Hc [Hl Ha]] HF']. cbn [ci_of fst snd] in Hc. subst c.
    pose proof (Ha 0 ltac:(lia)) as H0. cbn [fst snd] in H0.
    cbn [map fst snd unit_symbols dc_syms]. change (0 =? 0) with true. cbv iota. rewrite (IH HF'), Nat.eqb_refl.
    change (band (Z.max 1 0) 0) with (@nil Z). cbn [map ac_symbols app]. change (0 <? 0) with false. cbn [map app dcs_of].
    rewrite H0. reflexivity.
  Qed.
  Lemma ac_unit_symbols s en us : 1 <= s <= en -> en <= 64 -> fine us -> forall pred,
    unit_symbols s (en - 1) cf pred (map fst us) = acs_of ci (band_syms (s, en) (map snd us)).
  Proof.
    intros Hs He. induction us as [|[[[c y] x] b] us IH]; intros HF pred; [reflexivity|].
    apply Forall_cons_iff in HF as [[Hc Ha] HF']. cbn [ci_of fst snd] in Hc. subst c.
    cbn [map fst snd unit_symbols]. replace (s =? 0) with false by lia. rewrite (IH HF'). cbn [app].
    unfold acs_of, band_syms. cbn [flat_map fst snd]. rewrite map_app. f_equal.
    rewrite ac_symbols_eq. replace (Z.max 1 s) with s by lia.
    rewrite (agrees_slice cf ci y x b s en) by (assumption || lia). reflexivity.
  Qed.
  Lemma seq_unit_symbols us : fine us -> forall pred,
    Permutation (unit_symbols 0 63 cf pred (map fst us))
      (dcs_of ci (dc_syms (map snd us) (pred ci)) ++ acs_of ci (band_syms (1, 64) (map snd us))).
  Proof.
    induction us as [|[[[c y] x] b] us IH]; intros HF pred; [reflexivity|].
    apply Forall_cons_iff in HF as [[Hc Ha] HF']. cbn [ci_of fst snd] in Hc. subst c.
    cbn [map fst snd unit_symbols dc_syms dcs_of]. change (0 =? 0) with true. cbv iota. cbn [app].
    destruct Ha as [Hl Ha]. pose proof (Ha 0 ltac:(lia)) as H0. cbn [fst snd] in H0.
    rewrite H0. apply perm_skip.
    rewrite (IH HF'), Nat.eqb_refl.
    unfold acs_of at 2. unfold band_syms at 2. cbn [flat_map fst snd]. rewrite map_app.
    rewrite ac_symbols_eq. change (band (Z.max 1 0) 63) with (band 1 (64 - 1)).
    rewrite <- (agrees_slice cf ci y x b 1 64) by (try split; assumption || lia).
    rewrite app_assoc. rewrite (Permutation_app_comm (map _ _) (dcs_of ci _)). rewrite <- app_assoc. reflexivity.
  Qed.
End Comp.

Lemma intervals_one {A} ri (l : list A) : l <> [] -> ri = 0 \/ Z.of_nat (length l) <= ri -> intervals ri l = [l].
Proof.
  intros Hn Hr. unfold intervals. destruct (ri =? 0) eqn:E; [reflexivity|].
  assert (H : Z.of_nat (length l) <= ri) by (destruct Hr; lia). destruct l as [|a l]; [contradiction|].
  cbn [length group] in *. rewrite firstn_all2 by (cbn [length]; lia). rewrite skipn_all2 by (cbn [length]; lia).
  destruct (length l); reflexivity.
Qed.
Lemma perm_flat_swap {X Y W} (g : X -> Y -> list W) (ys : list Y) : forall xs,
  Permutation (flat_map (fun x => flat_map (g x) ys) xs) (flat_map (fun y => flat_map (fun x => g x y) xs) ys).
Proof.
  assert (D : forall (a b : Y -> list W) ys, Permutation (flat_map (fun y => a y ++ b y) ys) (flat_map a ys ++ flat_map b ys)).
  { clear. intros a b. induction ys as [|y ys IH]; [reflexivity|]. cbn [flat_map]. rewrite IH.
    rewrite <- !app_assoc. apply Permutation_app_head. rewrite !app_assoc. apply Permutation_app_tail, Permutation_app_comm. }
  induction xs as [|x xs IH]; cbn [flat_map].
  - induction ys as [|y ys IHy]; [reflexivity|exact IHy].
  - rewrite IH, D. reflexivity.
Qed.
Lemma perm_flat_ext {X W} (g h : X -> list W) l : (forall x, In x l -> Permutation (g x) (h x)) -> Permutation (flat_map g l) (flat_map h l).
Proof.
  induction l as [|x l IH]; intros H; cbn [flat_map]; [reflexivity|].
  apply Permutation_app; [apply H; now left|apply IH; intros; apply H; now right].
Qed.
Lemma add_perm l l' : Permutation l l' -> add l = add l'.
Proof. induction 1; rewrite ?add_cons; lia. Qed.
Lemma perm_flat_app {X W} (g h : X -> list W) l : Permutation (flat_map (fun x => g x ++ h x) l) (flat_map g l ++ flat_map h l).
Proof.
  induction l as [|y ys IH]; [reflexivity|]. cbn [flat_map]. rewrite IH.
  rewrite <- !app_assoc. apply Permutation_app_head. rewrite !app_assoc. apply Permutation_app_tail, Permutation_app_comm.
Qed.

(** ** One optimized file *)
Definition ac_form (v : Z) : Prop := v = 0 \/ v = 240 \/ exists r c, 0 <= r < 16 /\ 1 <= c <= 10 /\ v = 16 * r + c.
Lemma ac_syms_form : forall vals zr, Forall (fun v => Z.abs v < 2 ^ 10) vals -> 0 <= zr -> Forall ac_form (ac_syms vals zr).
Proof.
  induction vals as [|v vals IH]; intros zr Hv Hz; cbn [ac_syms].
  - destruct (0 <? zr); [constructor; [now left|constructor]|constructor].
  - apply Forall_cons_iff in Hv as [H1 Hv]. destruct (v =? 0) eqn:E; [apply IH; [exact Hv|lia]|].
    apply Forall_app. split.
    + apply Forall_forall. intros x Hx. apply repeat_spec in Hx. right; left. exact Hx.
    + constructor; [|apply IH; [exact Hv|lia]]. right; right. exists (zr mod 16), (nbits v).
      split; [apply Z.mod_pos_bound; lia|]. split; [|reflexivity]. unfold nbits. rewrite E.
      assert (0 <= Z.log2 (Z.abs v)) by apply Z.log2_nonneg. assert (Z.log2 (Z.abs v) < 10) by (apply Z.log2_lt_pow2; lia). lia.
Qed.
Definition has_code (h : huff) (v : Z) : bool := match code (table_of h) v with [] => false | _ => true end.
Lemma has_code_ok h v : has_code h v = true -> code (table_of h) v <> [].
Proof. unfold has_code. destruct (code _ _); [discriminate|intros _; discriminate]. Qed.
Lemma annexK_dc_codes d v : 0 <= v <= 11 -> code (table_of (tb_dc annexK_tables d)) v <> [].
Proof.
  intros Hv. apply has_code_ok. cbn [annexK_tables tb_dc]. destruct (d =? 0);
    (match goal with |- has_code ?h v = true => apply (zall (has_code h) 0 12); [vm_compute; reflexivity|lia] end).
Qed.
Lemma annexK_ac_codes d v : ac_form v -> code (table_of (tb_ac annexK_tables d)) v <> [].
Proof.
  intros Hv. apply has_code_ok.
  assert (Hb : 0 <= v < 256 /\ (v =? 0) || (v =? 240) || ((1 <=? v mod 16) && (v mod 16 <=? 10)) = true).
  { destruct Hv as [->|[->|(r & c & Hr & Hc & ->)]]; [split; [lia|reflexivity]|split; [lia|reflexivity]|]. split; [lia|].
    replace ((16 * r + c) mod 16) with c; [lia|]. rewrite Z.add_comm, Z.mul_comm, Z.mod_add by lia. symmetry. apply Z.mod_small. lia. }
  destruct Hb as [Hr Hb]. cbn [annexK_tables tb_ac].
  destruct (d =? 0);
    (match goal with |- has_code ?h v = true =>
      assert (A : implb ((v =? 0) || (v =? 240) || ((1 <=? v mod 16) && (v mod 16 <=? 10))) (has_code h v) = true);
      [apply (zall (fun v => implb ((v =? 0) || (v =? 240) || ((1 <=? v mod 16) && (v mod 16 <=? 10))) (has_code h v)) 0 256);
        [vm_compute; reflexivity|exact Hr]
      |rewrite Hb in A; exact A]
     end).
Qed.
Lemma sbits_split (tb : Z -> table) (G : Z * component -> list Z) l :
  (forall ic, In ic l -> c_qt (snd ic) = 0 \/ c_qt (snd ic) = 1) ->
  add (map (fun ic => sbits (tb (c_qt (snd ic))) (G ic)) l)
  = sbits (tb 0) (flat_map (fun ic => if c_qt (snd ic) =? 0 then G ic else []) l)
  + sbits (tb 1) (flat_map (fun ic => if c_qt (snd ic) =? 1 then G ic else []) l).
Proof.
  induction l as [|ic l IH]; intros H; [reflexivity|]. cbn [map flat_map]. rewrite add_cons, !sbits_app, IH by (intros; apply H; now right).
  destruct (H ic (or_introl eq_refl)) as [E|E]; rewrite E; cbn [Z.eqb Pos.eqb]; change (sbits (tb 0) []) with 0; change (sbits (tb 1) []) with 0; lia.
Qed.

Section Small.
  Variable s : settings.
  Variable Hs : settings_wf s.
  Variable Hopt : s_optimize s = true.
  Variable op : operations.
  Variable F : list Z -> list Z.
  Variable T : transform.
  Variable Hop : op_ok op F.
  Variable HF : transform_is F T.
  Variable im : image.
  Variable pl : planes.
  Variable Him : image_ok im pl.
  Variable Hno : no_restarts s (im_color im) (im_width im) (im_height im).
  Variable Hfew : countable s (im_color im) (im_width im) (im_height im).
  Let e := enc_of s.
  Let He : enc_ok e (s_luma s) (s_chroma s) := enc_of_ok s Hs.
  Let color := im_color im.
  Let cs := init_components (e_sampling e) color.
  Let mh := max_h (e_sampling e) color.
  Let mv := max_v (e_sampling e) color.
  Let q0 := qtable_of (s_luma s) (e_quality e) true.
  Let q1 := qtable_of (s_chroma s) (e_quality e) false.
  Let uns := units im pl F mh mv q0 q1.
  Let bs (i : Z) : list (list Z) := match nth_error cs (Z.to_nat i) with Some c => map snd (uns (Z.to_nat i) c) | None => [] end.
  Let f := frame_for s color (im_width im) (im_height im).
  Let cf := coefficients_of T s color pl (im_width im) (im_height im).
  Let Hcs : comps_ok cs mh mv. Proof. apply init_components_ok. Qed.
  Let Hn : length cs = Z.to_nat (num_components color). Proof. apply init_components_length. Qed.
  Let Hprog' : match e_prog e with Some n => 2 <= n <= 64 | None => True end.
  Proof. exact (eo_prog _ _ _ He). Qed.
  Let Hblocks : 63 * block_total cs bs + 1 < 4294967296.
  Proof.
    pose proof (total_eq im pl Him F e (s_luma s) (s_chroma s) Hopt) as E.
    change (block_total cs bs = frame_blocks (frame_of (match e_prog e with Some _ => true | None => false end) (im_width im) (im_height im) cs)) in E.
    rewrite E. unfold cs, e, color. rewrite frame_for_eq. exact Hfew.
  Qed.

  Lemma tables_made d0 a0 d1 a1 bd0 ba0 bd1 ba1 :
    opt_tables reference im pl F e (s_luma s) (s_chroma s) d0 a0 d1 a1 bd0 ba0 bd1 ba1 ->
    (table_for_syms reference (all_dc cs bs 0) d0 bd0 /\ table_for_syms reference (all_ac e cs bs 0) a0 ba0) /\
    (zlen cs <> 1 -> table_for_syms reference (all_dc cs bs 1) d1 bd1 /\ table_for_syms reference (all_ac e cs bs 1) a1 ba1).
  Proof.
    intros (Ht & V0 & V1 & V2 & V3 & _).
    set (blocks := all_blocks im pl F cs mh mv q0 q1).
    change (emits (tables_for reference e cs blocks) [] [(d0, a0); (d1, a1)]) in Ht.
    assert (Hot : forall table, (exists i c, In (i, c) (enumerate cs) /\ c_dc c = table /\ c_ac c = table) ->
      (exists d a bd ba, emits (optimize_table reference e cs blocks table) [] (d, a) /\
      table_for_syms reference (all_dc cs bs table) d bd /\ table_for_syms reference (all_ac e cs bs table) a ba) \/
      exec (optimize_table reference e cs blocks table) = ([], Panicked PIndex)).
    { intros table Hx.
      exact (proj1 (optimize_table_ok reference (or_intror eq_refl) e Hprog' cs blocks bs
        (bs_idx reference im pl F e (s_luma s) (s_chroma s)) (bs_ok im pl Him op F Hop e _ _ He)
        (fun i c Hi => proj2 (bs_len im pl Him F e _ _ Hopt i c Hi)) Hblocks table Hx)). }
    assert (U : forall l t t' tb tb', valid_tab t tb -> t' = t -> table_for_syms reference l t' tb' -> table_for_syms reference l t tb).
    { intros l t t' tb tb' V -> H. destruct H as (H1 & V' & H2). pose proof (vt_build _ _ V) as B. pose proof (vt_build _ _ V') as B'.
      rewrite B in B'. injection B' as <-. split; [exact H1|split; [exact V|exact H2]]. }
    assert (Np : forall k, exec (tables_for reference e cs blocks) <> ([], Panicked k)).
    { intros k X. unfold emits in Ht. rewrite X in Ht. discriminate Ht. }
    destruct (Hot 0 (uses_table0 _ _)) as [(d & a & bd & ba & E0 & D0 & A0)|X0].
    2:{ exfalso. apply (Np PIndex). unfold tables_for. change (e_optimize e) with (s_optimize s). rewrite Hopt. unfold optimize_huffman_table.
        assert (Ez : exists r, zrange (Z.min (zlen cs) 2) = 0 :: r).
        { pose proof (cs_len _ _ _ Hcs) as Hl. assert (Z.min (zlen cs) 2 = 1 \/ Z.min (zlen cs) 2 = 2) as [-> | ->] by (unfold zlen in *; lia).
          - exists []. reflexivity.
          - exists [1]. reflexivity. }
        destruct Ez as [r ->]. cbn [foldM]. apply exec_bind_panic, exec_bind_panic. exact X0. }
    destruct (Z.eq_dec (zlen cs) 1) as [L1|L1].
    - split; [|intros H; contradiction].
      assert (E : emits (tables_for reference e cs blocks) [] [(d, a); (std_chroma_dc, std_chroma_ac)]).
      { unfold tables_for. change (e_optimize e) with (s_optimize s). rewrite Hopt. unfold optimize_huffman_table. rewrite L1.
        change (zrange (Z.min 1 2)) with [0]. cbn [foldM]. eapply emits_bind0; [|apply emits_ret].
        eapply emits_bind0; [exact E0|]. rewrite (eo_huff _ _ _ He). apply emits_ret. }
      destruct (emits_inj _ _ _ _ _ E Ht) as [_ X]. injection X as X1 X2 _ _.
      split; [exact (U _ _ _ _ _ V0 X1 D0)|exact (U _ _ _ _ _ V1 X2 A0)].
    - assert (Em : Z.min (zlen cs) 2 = 2) by (pose proof (cs_len _ _ _ Hcs); unfold zlen in *; lia).
      destruct (Hot 1 (uses_table1 _ _ L1)) as [(d' & a' & bd' & ba' & E1 & D1 & A1)|X1].
      2:{ exfalso. apply (Np PIndex). unfold tables_for. change (e_optimize e) with (s_optimize s). rewrite Hopt. unfold optimize_huffman_table. rewrite Em.
          change (zrange 2) with [0; 1]. cbn [foldM].
          eapply exec_after0; [eapply emits_bind0; [exact E0|]; rewrite (eo_huff _ _ _ He); apply emits_ret|].
          apply exec_bind_panic, exec_bind_panic. exact X1. }
      assert (E : emits (tables_for reference e cs blocks) [] [(d, a); (d', a')]).
      { unfold tables_for. change (e_optimize e) with (s_optimize s). rewrite Hopt. unfold optimize_huffman_table. rewrite Em.
        change (zrange 2) with [0; 1]. cbn [foldM]. eapply emits_bind0; [eapply emits_bind0; [exact E0|]; rewrite (eo_huff _ _ _ He); apply emits_ret|].
        eapply emits_bind0; [eapply emits_bind0; [exact E1|]; apply emits_ret|]. apply emits_ret. }
      destruct (emits_inj _ _ _ _ _ E Ht) as [_ X]. injection X as X1 X2 X3 X4.
      split; [split; [exact (U _ _ _ _ _ V0 X1 D0)|exact (U _ _ _ _ _ V1 X2 A0)]|].
      intros _. split; [exact (U _ _ _ _ _ V2 X3 D1)|exact (U _ _ _ _ _ V3 X4 A1)].
  Qed.

  Lemma units_fine i c : nth_error cs i = Some c -> Forall (fun u => ci_of u = i /\ agrees cf u) (uns i c).
  Proof.
    assert (Hq0 : qtable_ok q0) by (apply qtable_of_ok; apply (eo_qt0 _ _ _ He)).
    assert (Hq1 : qtable_ok q1) by (apply qtable_of_ok; apply (eo_qt1 _ _ _ He)).
    intros Hi. apply Forall_forall. intros u Hu.
    destruct (units_ok im pl Him op F Hop cs mh mv Hcs Hn q0 q1 Hq0 Hq1 i c u Hi Hu) as [Eu Hb].
    split; [exact Eu|]. split; [apply Hb|].
    apply in_map_iff in Hu as ([y x] & <- & Hg). cbn [fst snd]. intros k Hk.
    exact (spec_cf_ok s Hs F T im pl HF i c y x k Hi Hk).
  Qed.
  Lemma comp_at i c : nth_error cs i = Some c -> nth_error (fr_comps f) i = Some (comp_of c).
  Proof. intros Hi. unfold f. rewrite <- frame_for_eq. unfold frame_of. cbn [fr_comps]. now apply map_nth_error. Qed.
  Lemma table_at (tb : Z -> huff) i c : nth_error cs i = Some c -> comp_table f tb i = table_of (tb (c_qt c)).
  Proof. intros Hi. unfold comp_table. rewrite (comp_at i c Hi). reflexivity. Qed.
  Lemma in_enum_at i c : In (i, c) (enumerate cs) -> nth_error cs (Z.to_nat i) = Some c /\ bs i = map snd (uns (Z.to_nat i) c).
  Proof. intros Hi. apply in_enum in Hi as [_ Hi]. split; [exact Hi|]. unfold bs. now rewrite Hi. Qed.
  Lemma one_scan_symbols ss se i c : In (i, c) (enumerate cs) ->
    scan_symbols f (s_restart s) cf (one_scan ss se (i, c)) = unit_symbols ss se cf (fun _ => 0) (map fst (uns (Z.to_nat i) c)).
  Proof.
    intros Hic. destruct (in_enum_at i c Hic) as [Hi Eb]. unfold scan_symbols, one_scan. cbn [fst si_ss si_se].
    assert (E : mcus_of f {| si_comps := [Z.to_nat i]; si_ss := ss; si_se := se |} = map (fun u => [fst u]) (uns (Z.to_nat i) c)).
    { unfold mcus_of. cbn [si_comps flat_map app]. rewrite (comp_at _ c Hi). cbn [app scan_mcus].
      unfold f. rewrite <- frame_for_eq. apply (single_mcus_units im pl F cs mh mv Hcs q0 q1 _ _ c Hi). }
    rewrite E.
    rewrite intervals_one.
    - cbn [flat_map]. rewrite app_nil_r, concat_singles. reflexivity.
    - pose proof (units_nonempty im pl Him F cs mh mv Hcs Hn q0 q1 _ c Hi) as N. fold uns in N.
      destruct (uns (Z.to_nat i) c); [contradiction|discriminate].
    - pose proof (bs_len im pl Him F e (s_luma s) (s_chroma s) Hopt i c Hic) as [L _].
      change (Z.of_nat (length (bs i)) = blocks_wide (frame_of (match e_prog e with Some _ => true | None => false end) (im_width im) (im_height im) cs) (comp_of c)
        * blocks_high (frame_of (match e_prog e with Some _ => true | None => false end) (im_width im) (im_height im) cs) (comp_of c)) in L.
      unfold cs, e, color in L. rewrite frame_for_eq in L. fold color in L. fold f in L.
      rewrite Eb, map_length in L. rewrite map_length.
      destruct Hno as [R|R]; [now left|right]. rewrite Forall_forall in R. rewrite L. apply (R (comp_of c)).
      apply (nth_error_In _ (Z.to_nat i)). exact (comp_at _ c Hi).
  Qed.

  Definition dc_part (ic : Z * component) : list symbol := dcs_of (Z.to_nat (fst ic)) (dc_syms (bs (fst ic)) 0).
  Definition ac_part (ic : Z * component) : list symbol :=
    acs_of (Z.to_nat (fst ic)) (flat_map (fun b => band_syms b (bs (fst ic))) (count_bands e)).
  Let symbols := flat_map (scan_symbols f (s_restart s) cf) (scan_script s color).
  Lemma file_symbols : Permutation symbols (flat_map dc_part (enumerate cs) ++ flat_map ac_part (enumerate cs)).
  Proof.
    unfold symbols. rewrite <- (body_scans_eq s color Hs). fold e cs.
    change (init_components (s_sampling s) color) with cs. unfold body_scans. change (e_optimize e) with (s_optimize s). rewrite Hopt.
    pose proof Hprog' as Hp. unfold ac_part, count_bands. destruct (e_prog e) as [n|] eqn:Ep.
    - rewrite flat_map_app. apply Permutation_app.
      + rewrite flat_map_concat_map, map_map, <- flat_map_concat_map. apply perm_flat_ext. intros [i c] Hic.
        rewrite (one_scan_symbols 0 0 i c Hic). destruct (in_enum_at i c Hic) as [Hi Eb].
        rewrite (dc_unit_symbols (Z.to_nat i) cf _ (units_fine _ c Hi)). unfold dc_part. cbn [fst]. rewrite Eb. reflexivity.
      + unfold ac_scans.
        assert (Hb : Forall band_in (bands n)) by (now apply bands_in). rewrite Forall_forall in Hb.
        assert (E1 : flat_map (scan_symbols f (s_restart s) cf) (flat_map (fun b => map (one_scan (fst b) (snd b - 1)) (enumerate cs)) (bands n))
          = flat_map (fun b => flat_map (fun ic => acs_of (Z.to_nat (fst ic)) (band_syms b (bs (fst ic)))) (enumerate cs)) (bands n)).
        { assert (G : forall l, incl l (bands n) -> flat_map (scan_symbols f (s_restart s) cf) (flat_map (fun b => map (one_scan (fst b) (snd b - 1)) (enumerate cs)) l)
            = flat_map (fun b => flat_map (fun ic => acs_of (Z.to_nat (fst ic)) (band_syms b (bs (fst ic)))) (enumerate cs)) l); [|apply G, incl_refl].
          induction l as [|b l IH]; intros Hin; [reflexivity|]. cbn [flat_map]. rewrite flat_map_app, IH by (intros x Hx; apply Hin; now right). f_equal.
          rewrite flat_map_concat_map, map_map, <- flat_map_concat_map. rewrite !flat_map_concat_map. f_equal. apply map_ext_in. intros [i c] Hic.
          rewrite (one_scan_symbols _ _ i c Hic). destruct (in_enum_at i c Hic) as [Hi Eb].
          destruct (Hb b (Hin b (or_introl eq_refl))) as [B1 B2].
          rewrite (ac_unit_symbols (Z.to_nat i) cf (fst b) (snd b) _ B1 B2 (units_fine _ c Hi)). cbn [fst]. rewrite Eb. now destruct b. }
        rewrite E1, perm_flat_swap. apply perm_flat_ext. intros [i c] Hic. cbn [fst].
        assert (G : forall l, Permutation (flat_map (fun b => acs_of (Z.to_nat i) (band_syms b (bs i))) l) (acs_of (Z.to_nat i) (flat_map (fun b => band_syms b (bs i)) l))).
        { induction l as [|b l IH]; [reflexivity|]. cbn [flat_map]. unfold acs_of at 3. rewrite map_app. apply Permutation_app_head. exact IH. }
        apply G.
    - cbn [orb]. rewrite flat_map_concat_map, map_map, <- flat_map_concat_map.
      rewrite <- perm_flat_app. apply perm_flat_ext. intros [i c] Hic.
      rewrite (one_scan_symbols 0 63 i c Hic). destruct (in_enum_at i c Hic) as [Hi Eb].
      rewrite (seq_unit_symbols (Z.to_nat i) cf _ (units_fine _ c Hi)). unfold dc_part. cbn [fst flat_map]. rewrite app_nil_r, Eb. reflexivity.
  Qed.

  Lemma two_tables ic : In ic (enumerate cs) -> c_qt (snd ic) = 0 \/ c_qt (snd ic) = 1.
  Proof.
    destruct ic as [i c]. intros Hic. destruct (in_enum_at i c Hic) as [Hi _].
    destruct (ck_qt _ _ _ _ _ (cs_comp _ _ _ Hcs _ _ Hi)) as [E|[E _]]; [left|right]; exact E.
  Qed.
  Lemma all_dc_eq d : all_dc cs bs d = flat_map (fun ic => if c_qt (snd ic) =? d then dc_syms (bs (fst ic)) 0 else []) (enumerate cs).
  Proof.
    unfold all_dc. rewrite !flat_map_concat_map. f_equal. apply map_ext_in. intros [i c] Hic. destruct (in_enum_at i c Hic) as [Hi _].
    unfold dc_of. cbn [fst snd]. now rewrite (ck_dc _ _ _ _ _ (cs_comp _ _ _ Hcs _ _ Hi)).
  Qed.
  Lemma all_ac_eq d : all_ac e cs bs d
    = flat_map (fun ic => if c_qt (snd ic) =? d then flat_map (fun b => band_syms b (bs (fst ic))) (count_bands e) else []) (enumerate cs).
  Proof.
    unfold all_ac. rewrite !flat_map_concat_map. f_equal. apply map_ext_in. intros [i c] Hic. destruct (in_enum_at i c Hic) as [Hi _].
    unfold ac_of. cbn [fst snd]. now rewrite (ck_ac _ _ _ _ _ (cs_comp _ _ _ Hcs _ _ Hi)).
  Qed.

  Definition paid (t : tables) : Z :=
    (sbits (table_of (tb_dc t 0)) (all_dc cs bs 0) + sbits (table_of (tb_dc t 1)) (all_dc cs bs 1)) +
    (sbits (table_of (tb_ac t 0)) (all_ac e cs bs 0) + sbits (table_of (tb_ac t 1)) (all_ac e cs bs 1)).
  Lemma symbols_paid t : add (map (fweight f t) symbols) = paid t.
  Proof.
    rewrite (add_perm _ _ (Permutation_map _ file_symbols)). rewrite map_app, add_app, !add_flat. unfold paid.
    rewrite !all_dc_eq, !all_ac_eq.
    rewrite <- (sbits_split (fun d => table_of (tb_dc t d)) (fun ic => dc_syms (bs (fst ic)) 0) _ two_tables).
    rewrite <- (sbits_split (fun d => table_of (tb_ac t d)) (fun ic => flat_map (fun b => band_syms b (bs (fst ic))) (count_bands e)) _ two_tables).
    assert (E1 : map (fun ic => add (map (fweight f t) (dc_part ic))) (enumerate cs)
               = map (fun ic => sbits (table_of (tb_dc t (c_qt (snd ic)))) (dc_syms (bs (fst ic)) 0)) (enumerate cs)).
    { apply map_ext_in. intros [i c] Hic. destruct (in_enum_at i c Hic) as [Hi _]. unfold dc_part, dcs_of, sbits. rewrite map_map. f_equal.
      apply map_ext. intros v. unfold fweight, weight. change (0 =? 0) with true. cbv iota. cbn [fst snd]. now rewrite (table_at _ _ c Hi). }
    assert (E2 : map (fun ic => add (map (fweight f t) (ac_part ic))) (enumerate cs)
               = map (fun ic => sbits (table_of (tb_ac t (c_qt (snd ic)))) (flat_map (fun b => band_syms b (bs (fst ic))) (count_bands e))) (enumerate cs)).
    { apply map_ext_in. intros [i c] Hic. destruct (in_enum_at i c Hic) as [Hi _]. unfold ac_part, acs_of, sbits. rewrite map_map. f_equal.
      apply map_ext. intros v. unfold fweight, weight. change (1 =? 0) with false. cbv iota. cbn [fst snd]. now rewrite (table_at _ _ c Hi). }
    rewrite E1, E2. reflexivity.
  Qed.
  Lemma covers_all t : covers T t s color pl (im_width im) (im_height im) -> forall d,
    (forall v, In v (all_dc cs bs d) -> code (table_of (tb_dc t d)) v <> []) /\
    (forall v, In v (all_ac e cs bs d) -> code (table_of (tb_ac t d)) v <> []).
  Proof.
    intros C d. pose proof (covers_eq _ _ _ _ _ _ _ C) as H. cbv zeta in H. change (flat_map _ _) with symbols in H.
    assert (I : forall x, In x (flat_map dc_part (enumerate cs) ++ flat_map ac_part (enumerate cs)) -> In x symbols).
    { intros x Hx. exact (Permutation_in _ (Permutation_sym file_symbols) Hx). }
    split; intros v Hv; [rewrite all_dc_eq in Hv|rewrite all_ac_eq in Hv]; apply in_flat_map in Hv as ([i c] & Hic & Hv); cbn [fst snd] in Hv;
      destruct (c_qt c =? d) eqn:E; try contradiction; assert (Ed : c_qt c = d) by lia; subst d; destruct (in_enum_at i c Hic) as [Hi _];
      rewrite <- (table_at _ _ c Hi).
    - apply (H (Z.to_nat i) 0 v). apply I, in_or_app. left. apply in_flat_map. exists (i, c). split; [exact Hic|].
      unfold dc_part, dcs_of. cbn [fst]. apply in_map_iff. exists v. split; [reflexivity|exact Hv].
    - apply (H (Z.to_nat i) 1 v). apply I, in_or_app. right. apply in_flat_map. exists (i, c). split; [exact Hic|].
      unfold ac_part, acs_of. cbn [fst]. apply in_map_iff. exists v. split; [reflexivity|exact Hv].
  Qed.

  Lemma ac_syms_nonempty vals : vals <> [] -> ac_syms vals 0 <> [].
  Proof.
    destruct vals as [|v r]; intros H; [contradiction|]. cbn [ac_syms]. destruct (v =? 0).
    - assert (G : forall l z, 0 < z -> ac_syms l z <> []); [|apply G; lia].
      induction l as [|x l IH]; intros z Hz; cbn [ac_syms]; [replace (0 <? z) with true by lia; discriminate|].
      destruct (x =? 0); [apply IH; lia|]. destruct (repeat 240 (Z.to_nat (z / 16))); discriminate.
    - destruct (repeat 240 (Z.to_nat (0 / 16))); discriminate.
  Qed.
  Lemma nonempty d : (exists i c, In (i, c) (enumerate cs) /\ c_dc c = d /\ c_ac c = d) -> all_dc cs bs d <> [] /\ all_ac e cs bs d <> [].
  Proof.
    intros (i & c & Hic & Ed & Ea). destruct (in_enum_at i c Hic) as [Hi _].
    assert (Eq : c_qt c = d) by (now rewrite <- (ck_dc _ _ _ _ _ (cs_comp _ _ _ Hcs _ _ Hi))).
    pose proof (proj2 (bs_len im pl Him F e (s_luma s) (s_chroma s) Hopt i c Hic)) as N. change (bs i <> []) in N.
    pose proof (bs_ok im pl Him op F Hop e _ _ He i c Hic) as B. change (Forall block_ok (bs i)) in B.
    assert (X : exists b l, bs i = b :: l) by (destruct (bs i) as [|b l]; [contradiction|now exists b, l]).
    destruct X as (blk & rest & Eb). rewrite Eb in B. apply Forall_cons_iff in B as [Hblk _].
    split; intros E.
    - assert (H : In (nbits (zn blk 0 - 0)) (all_dc cs bs d)).
      { rewrite all_dc_eq. apply in_flat_map. exists (i, c). split; [exact Hic|]. cbn [fst snd]. rewrite Eq, Z.eqb_refl, Eb. now left. }
      rewrite E in H. destruct H.
    - destruct (count_bands_width e Hprog') as [Hbd Hw]. destruct (some_band (count_bands e) ltac:(lia)) as ([x en] & Hin & Hlt).
      rewrite Forall_forall in Hbd. destruct (Hbd _ Hin) as [B1 B2]. cbn [fst snd] in B1, B2, Hlt.
      assert (L : length (slice blk x en) = Z.to_nat (en - x)) by (destruct Hblk as (H64 & _); apply slice_len; unfold zlen; lia).
      assert (N2 : ac_syms (slice blk x en) 0 <> []) by (apply ac_syms_nonempty; intros E0; rewrite E0 in L; cbn [length] in L; lia).
      assert (X : exists v l, ac_syms (slice blk x en) 0 = v :: l) by (destruct (ac_syms _ _) as [|v l]; [contradiction|now exists v, l]).
      destruct X as (v & l & Ev).
      assert (H : In v (all_ac e cs bs d)); [|rewrite E in H; destruct H].
      rewrite all_ac_eq. apply in_flat_map. exists (i, c). split; [exact Hic|]. cbn [fst snd]. rewrite Eq, Z.eqb_refl.
      apply in_flat_map. exists (x, en). split; [exact Hin|]. rewrite Eb. unfold band_syms. cbn [flat_map fst snd]. apply in_or_app. left. rewrite Ev. now left.
  Qed.

  Lemma best d x y bx by_ h1 h2 : (exists i c, In (i, c) (enumerate cs) /\ c_dc c = d /\ c_ac c = d) ->
    table_for_syms reference (all_dc cs bs d) x bx -> table_for_syms reference (all_ac e cs bs d) y by_ ->
    (short_codes (huff_of x) /\ short_codes (huff_of y)) \/ 63 * block_count f + 1 < 4181 ->
    storable h1 -> storable h2 -> (forall v, In v (all_dc cs bs d) -> code (table_of h1) v <> []) ->
    (forall v, In v (all_ac e cs bs d) -> code (table_of h2) v <> []) ->
    sbits bx (all_dc cs bs d) + sbits by_ (all_ac e cs bs d) + (longest bx + longest by_)
    <= sbits (table_of h1) (all_dc cs bs d) + sbits (table_of h2) (all_ac e cs bs d) + (longest (table_of h1) + longest (table_of h2)).
  Proof.
    intros Hx Tx Ty Hsm [[b1 E1] Z1] [[b2 E2] Z2] C1 C2. destruct (nonempty d Hx) as [N1 N2].
    pose proof (bs_ok im pl Him op F Hop e _ _ He) as B.
    pose proof (bs_idx reference im pl F e (s_luma s) (s_chroma s)) as BI.
    pose proof (fun i c Hi => proj2 (bs_len im pl Him F e (s_luma s) (s_chroma s) Hopt i c Hi)) as BN.
    destruct (all_dc_ok cs _ bs BI B BN d) as [S1 L1]. destruct (all_ac_ok e Hprog' cs _ bs BI B BN d) as [S2 L2].
    assert (BT : block_total cs bs = block_count f).
    { pose proof (total_eq im pl Him F e (s_luma s) (s_chroma s) Hopt) as E.
      change (block_total cs bs = frame_blocks (frame_of (match e_prog e with Some _ => true | None => false end) (im_width im) (im_height im) cs)) in E.
      rewrite E. unfold cs, e, color. rewrite frame_for_eq. reflexivity. }
    assert (B0 : 0 <= block_total cs bs) by (etransitivity; [|exact L1]; apply Zle_0_nat).
    assert (R1 : table_of h1 = b1) by (unfold table_of; now rewrite E1). assert (R2 : table_of h2 = b2) by (unfold table_of; now rewrite E2).
    rewrite R1 in *. rewrite R2 in *. rewrite <- BT in Hsm. pose proof Hblocks as HB.
    set (n := block_total cs bs) in *. clearbody n.
    pose proof (table_best reference (all_dc cs bs d) x bx _ _ b1 S1 N1 ltac:(clear - L1 HB B0; lia) Tx
      ltac:(clear - L1 Hsm B0; destruct Hsm as [[H _]|H]; [right; exact H|left; lia]) E1 Z1 C1) as G1.
    pose proof (table_best reference (all_ac e cs bs d) y by_ _ _ b2 S2 N2 ltac:(clear - L2 HB B0; lia) Ty
      ltac:(clear - L2 Hsm B0; destruct Hsm as [[_ H]|H]; [right; exact H|left; lia]) E2 Z2 C2) as G2.
    clear - G1 G2. lia.
  Qed.

  Lemma smallest d0 a0 d1 a1 bd0 ba0 bd1 ba1 :
    opt_tables reference im pl F e (s_luma s) (s_chroma s) d0 a0 d1 a1 bd0 ba0 bd1 ba1 ->
    let t := tables_of d0 a0 d1 a1 in
    Forall short_codes (in_use t f) \/ 63 * block_count f + 1 < 4181 ->
    forall t', Forall storable (in_use t' f) -> covers T t' s color pl (im_width im) (im_height im) ->
      entropy_bits T t s color pl (im_width im) (im_height im) + longest_codes t f
      <= entropy_bits T t' s color pl (im_width im) (im_height im) + longest_codes t' f.
  Proof.
    intros Ht t Hsm t' Hst Hcov. pose proof Ht as (_ & V0 & V1 & V2 & V3 & _).
    destruct (tables_made _ _ _ _ _ _ _ _ Ht) as [[D0 A0] H1]. destruct (covers_all t' Hcov 0) as [C0 C0']. destruct (covers_all t' Hcov 1) as [C1 C1'].
    rewrite !entropy_bits_eq. fold f cf symbols. rewrite !symbols_paid. unfold paid.
    assert (TB : forall x tb, valid_tab x tb -> table_of (huff_of x) = tb).
    { intros x tb V. unfold table_of, huff_of. cbn [fst snd]. now rewrite (vt_build _ _ V). }
    unfold longest_codes, in_use in *.
    assert (Ln : length (fr_comps f) = length cs) by (unfold f; rewrite <- frame_for_eq; unfold frame_of; cbn [fr_comps]; apply map_length).
    assert (T0 : tb_dc t 0 = huff_of d0) by reflexivity. assert (T1 : tb_ac t 0 = huff_of a0) by reflexivity.
    assert (T2 : tb_dc t 1 = huff_of d1) by reflexivity. assert (T3 : tb_ac t 1 = huff_of a1) by reflexivity.
    unfold destinations in *. rewrite Ln in *. clearbody t.
    pose proof (cs_len _ _ _ Hcs) as Hlen. destruct (3 <=? length cs)%nat eqn:E3.
    - cbn [flat_map app map fold_right] in *. rewrite T0, T1, T2, T3 in *.
      apply Forall_cons_iff in Hst as [S0 Hst]. apply Forall_cons_iff in Hst as [S1 Hst]. apply Forall_cons_iff in Hst as [S2 Hst]. apply Forall_cons_iff in Hst as [S3 _].
      assert (N1 : zlen cs <> 1) by (unfold zlen; lia). destruct (H1 N1) as [D1 A1].
      pose proof (best 0 _ _ _ _ (tb_dc t' 0) (tb_ac t' 0) (uses_table0 _ _) D0 A0
        ltac:(destruct Hsm as [H|H]; [left; rewrite !Forall_cons_iff in H; tauto|right; exact H]) S0 S1 C0 C0') as B0.
      pose proof (best 1 _ _ _ _ (tb_dc t' 1) (tb_ac t' 1) (uses_table1 _ _ N1) D1 A1
        ltac:(destruct Hsm as [H|H]; [left; rewrite !Forall_cons_iff in H; tauto|right; exact H]) S2 S3 C1 C1') as B1.
      rewrite (TB _ _ V0), (TB _ _ V1), (TB _ _ V2), (TB _ _ V3). clear - B0 B1. lia.
    - cbn [flat_map app map fold_right] in *. rewrite T0, T1 in *.
      apply Forall_cons_iff in Hst as [S0 Hst]. apply Forall_cons_iff in Hst as [S1 _].
      pose proof (best 0 _ _ _ _ (tb_dc t' 0) (tb_ac t' 0) (uses_table0 _ _) D0 A0
        ltac:(destruct Hsm as [H|H]; [left; rewrite !Forall_cons_iff in H; tauto|right; exact H]) S0 S1 C0 C0') as B0.
      assert (Z0 : forall ic, In ic (enumerate cs) -> c_qt (snd ic) = 0).
      { intros [i c] Hic. destruct (in_enum_at i c Hic) as [Hi _]. destruct (ck_qt _ _ _ _ _ (cs_comp _ _ _ Hcs _ _ Hi)) as [E|[_ E]]; [exact E|].
        exfalso. clear - E E3. lia. }
      assert (EM : forall G : Z * component -> list Z, flat_map (fun ic => if c_qt (snd ic) =? 1 then G ic else []) (enumerate cs) = []).
      { intros G. rewrite flat_map_concat_map. rewrite (map_ext_in _ (fun _ => [])).
        - generalize (enumerate cs). intros l. induction l as [|a l IH]; [reflexivity|exact IH].
        - intros ic Hic. now rewrite (Z0 ic Hic). }
      rewrite (all_dc_eq 1), (all_ac_eq 1), (EM (fun ic => dc_syms (bs (fst ic)) 0)),
        (EM (fun ic => flat_map (fun b => band_syms b (bs (fst ic))) (count_bands e))).
      change (sbits (table_of (tb_dc t 1)) []) with 0. change (sbits (table_of (tb_ac t 1)) []) with 0.
      change (sbits (table_of (tb_dc t' 1)) []) with 0. change (sbits (table_of (tb_ac t' 1)) []) with 0.
      rewrite (TB _ _ V0), (TB _ _ V1). clear - B0. lia.
  Qed.

  (** The tables of Annex K have a code for every symbol. *)
  Lemma annexK_covers : covers T annexK_tables s color pl (im_width im) (im_height im).
  Proof.
    intros si mcus ci class v Hsi Hm Hin. fold f.
    assert (Hi : In (ci, class, v) symbols).
    { unfold symbols. apply in_flat_map. exists si. split; [exact Hsi|]. unfold scan_symbols. apply in_flat_map. exists mcus. split; [exact Hm|exact Hin]. }
    apply (Permutation_in _ file_symbols) in Hi. apply in_app_or in Hi as [Hi|Hi]; apply in_flat_map in Hi as ([i c] & Hic & Hi);
      destruct (in_enum_at i c Hic) as [Hc _]; pose proof (bs_ok im pl Him op F Hop e _ _ He i c Hic) as B; change (Forall block_ok (bs i)) in B.
    - unfold dc_part, dcs_of in Hi. apply in_map_iff in Hi as (v' & E & Hv). cbn [fst] in E. injection E as <- <- <-.
      change (0 =? 0) with true. cbv iota. rewrite (table_at _ _ c Hc). cbn [fst] in Hv.
      pose proof (dc_syms_bound _ 0 B ltac:(lia)) as Bd. rewrite Forall_forall in Bd. specialize (Bd _ Hv).
      now apply annexK_dc_codes.
    - unfold ac_part, acs_of in Hi. apply in_map_iff in Hi as (v' & E & Hv). cbn [fst] in E. injection E as <- <- <-.
      change (1 =? 0) with false. cbv iota. rewrite (table_at _ _ c Hc). cbn [fst] in Hv.
      apply in_flat_map in Hv as (b & Hb & Hv). unfold band_syms in Hv. apply in_flat_map in Hv as (blk & Hblk & Hv).
      destruct (count_bands_width e Hprog') as [Hbd _]. rewrite Forall_forall in Hbd, B. destruct (Hbd b Hb) as [B1 B2].
      pose proof (ac_syms_form (slice blk (fst b) (snd b)) 0 (block_ok_slice blk (fst b) (snd b) (B blk Hblk) ltac:(lia) ltac:(lia)) ltac:(lia)) as Hf.
      rewrite Forall_forall in Hf. apply annexK_ac_codes, Hf, Hv.
  Qed.
  Lemma annexK_storable : Forall storable (in_use annexK_tables f).
  Proof.
    assert (A : forall d, d = 0 \/ d = 1 -> storable (tb_dc annexK_tables d) /\ storable (tb_ac annexK_tables d)).
    { assert (K : forall h, match build_table (fst h) (snd h) with Some _ => forallb (fun v => (0 <=? v) && (v <? 256)) (snd h) | None => false end = true -> storable h).
      { intros h. destruct (build_table (fst h) (snd h)) eqn:E; [|discriminate]. intros Hf. split; [now exists t|].
        rewrite forallb_forall in Hf. apply Forall_forall. intros v Hv. specialize (Hf v Hv). lia. }
      intros d [->| ->]; split; apply K; vm_compute; reflexivity. }
    destruct (A 0 (or_introl eq_refl)), (A 1 (or_intror eq_refl)).
    unfold in_use, destinations. destruct (3 <=? _)%nat; cbn [flat_map app]; repeat (constructor; [assumption|]); constructor.
  Qed.
  Lemma annexK_longest : longest_codes annexK_tables f = if (3 <=? length (fr_comps f))%nat then 52 else 25.
  Proof.
    unfold longest_codes, in_use, destinations. destruct (3 <=? _)%nat; vm_compute; reflexivity.
  Qed.
End Small.
