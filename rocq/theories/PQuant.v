(** Quantization: the pure function, its bounds and the tables. *)
From Verif Require Export PExec PFdct MQuant MEncoder.
From Coq Require Import ZifyBool ZifyNat.
Local Ltac Zify.zify_post_hook ::= Z.div_mod_to_equations.

(** Quantization of [v] by [d] with the fixed-point reciprocal. *)
Definition quant_abs (d a : Z) : Z :=
  (a + snd (compute_reciprocal d)) * fst (compute_reciprocal d) / 2 ^ 15.
Definition quant_pure (d v : Z) : Z := if v <? 0 then - quant_abs d (- v) else quant_abs d v.

(** A quantization table as [new_with_quality] builds it. *)
Definition qtable_ok (q : qtable) : Prop :=
  length (qt_table q) = 64%nat /\
  Forall (fun d => exists v, 1 <= v <= 2048 /\ d = 8 * v) (qt_table q) /\
  qt_reciprocals q = map (fun v => fst (compute_reciprocal v)) (qt_table q) /\
  qt_corrections q = map (fun v => snd (compute_reciprocal v)) (qt_table q).

Lemma compute_reciprocal_bounds d : 8 <= d <= 16384 ->
  let '(r, c) := compute_reciprocal d in
  (* r is within 1/2 of 2^15/d, up to the case of an exact half *)
  2 <= r <= 4096 /\ 2 * Z.abs (r * d - 32768) <= d /\ d / 2 <= c <= d / 2 + 1.
Proof.
  intros Hd. unfold compute_reciprocal, SHIFT. change (2 ^ 15) with 32768.
  replace (d <=? 1) with false by lia.
  pose proof (Z.div_mod 32768 d ltac:(lia)) as E. pose proof (Z.mod_pos_bound 32768 d ltac:(lia)) as B.
  set (r := 32768 / d) in *. set (f := 32768 mod d) in *.
  assert (Hr : 2 <= r <= 4096).
  { subst r. split; [apply Z.div_le_lower_bound; lia|]. apply Z.div_le_upper_bound; lia. }
  destruct (f =? 0) eqn:E0; [|destruct (f <=? d / 2) eqn:E1]; (split; [|split]); try lia.
Qed.

Lemma quant_abs_nonneg d a : 8 <= d <= 16384 -> 0 <= a -> 0 <= quant_abs d a.
Proof.
  intros Hd Ha. pose proof (compute_reciprocal_bounds d Hd) as B. unfold quant_abs.
  destruct (compute_reciprocal d) as [r c]. cbn [fst snd]. apply Z.div_pos; [|lia].
  apply Z.mul_nonneg_nonneg; lia.
Qed.

Lemma quant_abs_mono d a b : 8 <= d <= 16384 -> 0 <= a <= b -> quant_abs d a <= quant_abs d b.
Proof.
  intros Hd H. pose proof (compute_reciprocal_bounds d Hd) as B. unfold quant_abs.
  destruct (compute_reciprocal d) as [r c]. cbn [fst snd]. apply Z.div_le_mono; [lia|].
  apply Z.mul_le_mono_nonneg_r; lia.
Qed.

(** Coarse bound: quant_abs d a <= (a + d/2 + 1) * (32768 + d/2) / d / 32768. *)
Lemma quant_abs_bound d a n : 8 <= d <= 16384 -> 0 <= a -> 0 <= n ->
  (2 * a + d + 2) * (65536 + d) < 131072 * d * (n + 1) -> quant_abs d a <= n.
Proof.
  intros Hd Ha Hn H. pose proof (compute_reciprocal_bounds d Hd) as B. unfold quant_abs.
  destruct (compute_reciprocal d) as [r c]. cbn [fst snd]. destruct B as (Hr & He & Hc).
  assert (Hrd : 2 * r * d <= 65536 + d) by lia.
  change (2 ^ 15) with 32768.
  enough ((a + c) * r < 32768 * (n + 1)) by (apply Z.lt_succ_r; apply Z.div_lt_upper_bound; lia).
  assert (H1 : 2 * (a + c) <= 2 * a + d + 2) by lia.
  assert (H2 : (2 * (a + c)) * (2 * r * d) <= (2 * a + d + 2) * (65536 + d)).
  { apply Z.mul_le_mono_nonneg; nia. }
  nia.
Qed.

Lemma quant_pure_ac d v : 8 <= d <= 16384 -> -8170 <= v <= 8170 -> Z.abs (quant_pure d v) < 2 ^ 10.
Proof.
  intros Hd Hv. change (2 ^ 10) with 1024.
  assert (H : forall a, 0 <= a <= 8170 -> 0 <= quant_abs d a <= 1023).
  { intros a Ha. split; [apply quant_abs_nonneg; lia|].
    destruct (Z.eq_dec d 8) as [->|Hne].
    - unfold quant_abs. change (compute_reciprocal 8) with (4096, 4). cbn [fst snd].
      change (2 ^ 15) with 32768. lia.
    - apply quant_abs_bound; nia. }
  unfold quant_pure. destruct (v <? 0) eqn:E.
  - pose proof (H (- v) ltac:(lia)). lia.
  - pose proof (H v ltac:(lia)). lia.
Qed.

Lemma quant_pure_dc d v : 8 <= d <= 16384 -> -8192 <= v <= 8128 -> -1024 <= quant_pure d v <= 1023.
Proof.
  intros Hd Hv.
  destruct (Z_lt_dec v (-8160)) as [H|H].
  - unfold quant_pure. replace (v <? 0) with true by lia.
    assert (0 <= quant_abs d (- v) <= 1024); [|lia].
    split; [apply quant_abs_nonneg; lia|].
    destruct (Z.eq_dec d 8) as [->|Hne].
    + unfold quant_abs. change (compute_reciprocal 8) with (4096, 4). cbn [fst snd].
      change (2 ^ 15) with 32768. lia.
    + apply quant_abs_bound; nia.
  - pose proof (quant_pure_ac d v Hd ltac:(lia)). change (2 ^ 10) with 1024 in *. lia.
Qed.

Lemma zn_map {A} (f : A -> Z) (l : list A) i d : 0 <= i < zlen l -> zn (map f l) i = f (nth (Z.to_nat i) l d).
Proof.
  intros H. unfold zn. rewrite (nth_indep _ 0 (f d)); [apply map_nth|].
  rewrite map_length. unfold zlen in H. lia.
Qed.

Lemma qtable_entry q i : qtable_ok q -> 0 <= i < 64 ->
  8 <= zn (qt_table q) i <= 16384 /\
  exists v, 1 <= v <= 2048 /\ zn (qt_table q) i = 8 * v.
Proof.
  intros (Hl & HF & _) Hi.
  assert (H : exists v, 1 <= v <= 2048 /\ zn (qt_table q) i = 8 * v).
  { apply (zn_in_range (fun d => exists v, 1 <= v <= 2048 /\ d = 8 * v)); [assumption|].
    unfold zlen. lia. }
  split; [|exact H]. destruct H as (v & Hv & ->). lia.
Qed.

Lemma quantize_ret P q v i :
  qtable_ok q -> 0 <= i < 64 -> -32768 <= v <= 32767 ->
  quantize P q v i = Ret (quant_pure (zn (qt_table q) i) v).
Proof.
  intros Hq Hi Hv. destruct (qtable_entry q i Hq Hi) as [Hd _].
  destruct Hq as (Hl & HF & Hr & Hc).
  unfold quantize. rewrite Hr, Hc.
  rewrite !(zn_map _ _ _ 0) by (unfold zlen; lia).
  fold (zn (qt_table q) i). set (d := zn (qt_table q) i) in *.
  pose proof (compute_reciprocal_bounds d Hd) as B.
  unfold quant_pure, quant_abs. destruct (compute_reciprocal d) as [r c]. cbn [fst snd].
  destruct B as (Br & Be & Bc). unfold SHIFT. change (2 ^ 15) with 32768.
  rewrite ck_s_ret by (change (2 ^ (32 - 1)) with 2147483648; lia). cbn [bind].
  assert (Hs : 0 <= (Z.abs v + c) * r < 2 ^ 28).
  { change (2 ^ 28) with (65536 * 4096). split; [nia|].
    apply Z.le_lt_trans with ((Z.abs v + c) * 4096); [nia|].
    apply Z.mul_lt_mono_pos_r; lia. }
  rewrite ck_s_ret by (change (2 ^ (32 - 1)) with 2147483648; change (2 ^ 28) with 268435456 in *; lia).
  cbn [bind]. change (2 ^ 28) with 268435456 in Hs.
  destruct (v <? 0) eqn:E.
  - replace (negb (v =? Z.abs v)) with true by lia. rewrite wrap_s_id.
    + replace (Z.abs v) with (- v) by lia. f_equal. lia.
    + lia.
    + change (2 ^ (16 - 1)) with 32768. lia.
  - replace (negb (v =? Z.abs v)) with false by lia. rewrite wrap_s_id.
    + replace (Z.abs v) with v by lia. reflexivity.
    + lia.
    + change (2 ^ (16 - 1)) with 32768. lia.
Qed.

(** ** Blocks *)
Lemma zigzag_range i : 0 <= i < 64 -> 0 <= zn ZIGZAG i < 64.
Proof.
  intros Hi.
  assert (H : forallb (fun z => (0 <=? z) && (z <? 64)) ZIGZAG = true) by reflexivity.
  rewrite forallb_forall in H.
  specialize (H (zn ZIGZAG i)). assert (In (zn ZIGZAG i) ZIGZAG).
  { apply nth_In. change (length ZIGZAG) with 64%nat. lia. }
  specialize (H H0). lia.
Qed.

Lemma zigzag_zero i : 0 <= i < 64 -> (zn ZIGZAG i = 0 <-> i = 0).
Proof.
  intros Hi. split; [|now intros ->].
  assert (H : forallb (fun z => negb (z =? 0)) (tl ZIGZAG) = true) by reflexivity.
  rewrite forallb_forall in H. intros Hz. destruct (Z.eq_dec i 0) as [|Hne]; [assumption|exfalso].
  specialize (H (zn ZIGZAG i)). assert (In (zn ZIGZAG i) (tl ZIGZAG)).
  { unfold zn. replace (Z.to_nat i) with (S (Z.to_nat i - 1)) by lia.
    change (nth (S (Z.to_nat i - 1)) ZIGZAG 0) with (nth (Z.to_nat i - 1) (tl ZIGZAG) 0).
    apply nth_In. change (length (tl ZIGZAG)) with 63%nat. lia. }
  specialize (H H0). rewrite Hz in H. discriminate.
Qed.

Definition qblock_pure (q : qtable) (b : list Z) : list Z :=
  map (fun i => quant_pure (zn (qt_table q) (zn ZIGZAG i)) (zn b (zn ZIGZAG i))) (zrange 64).

Lemma land_3f z : 0 <= z < 64 -> Z.land z 0x3f = z.
Proof. intros. change 0x3f with (Z.ones 6). rewrite Z.land_ones by lia. apply Z.mod_small. lia. Qed.

Lemma quantize_block_ret P q b :
  qtable_ok q -> (forall i, 0 <= i < 64 -> -32768 <= zn b i <= 32767) ->
  quantize_block P b q = Ret (qblock_pure q b).
Proof.
  intros Hq Hb. unfold quantize_block. apply mapM_ret. intros i Hi. apply in_zrange in Hi. cbv zeta.
  pose proof (zigzag_range i Hi). rewrite land_3f by assumption.
  apply quantize_ret; auto.
Qed.

Lemma qblock_pure_length q b : length (qblock_pure q b) = 64%nat.
Proof. unfold qblock_pure. now rewrite map_length, zrange_length. Qed.

Lemma qblock_pure_nth q b i : 0 <= i < 64 ->
  zn (qblock_pure q b) i = quant_pure (zn (qt_table q) (zn ZIGZAG i)) (zn b (zn ZIGZAG i)).
Proof.
  intros Hi. unfold qblock_pure, zn at 1. erewrite nth_error_nth; [reflexivity|].
  rewrite (map_nth_error _ _ _ (zrange_nth 64 (Z.to_nat i) ltac:(lia))).
  now rewrite Z2Nat.id by lia.
Qed.

(** ** The tables *)
Definition qtype_ok (t : qtype) : Prop :=
  match t with
  | QCustom l => length l = 64%nat /\ Forall (fun v => 0 <= v < 65536) l
  | _ => True
  end.

(** Base table of a built-in type *)
Definition base_table (t : qtype) (luma : bool) : option (list Z) :=
  let tabs := if luma then DEFAULT_LUMA_TABLES else DEFAULT_CHROMA_TABLES in
  match t with
  | QDefault => nth_error tabs 0 | QFlat => nth_error tabs 1 | QCustomMsSsim => nth_error tabs 2
  | QCustomPsnrHvs => nth_error tabs 3 | QImageMagick => nth_error tabs 4
  | QKleinSilversteinCarney => nth_error tabs 5 | QDentalXRays => nth_error tabs 6
  | QVisualDetectionModel => nth_error tabs 7 | QImprovedDetectionModel => nth_error tabs 8
  | QCustom _ => None
  end.

(** The quantizers (without the DCT scale of 8). *)
Definition quantizers (t : qtype) (quality : Z) (luma : bool) : list Z :=
  match t with
  | QCustom l => map (fun v => clamp v 1 2048) l
  | _ => map (fun v => clamp ((v * quality_scale quality + 50) / 100) 1 255)
             (match base_table t luma with Some l => l | None => [] end)
  end.

Definition qtable_of (t : qtype) (quality : Z) (luma : bool) : qtable :=
  let l := map (fun v => 8 * v) (quantizers t quality luma) in
  {| qt_table := l;
     qt_reciprocals := map (fun v => fst (compute_reciprocal v)) l;
     qt_corrections := map (fun v => snd (compute_reciprocal v)) l |}.

Lemma clamp_bounds v lo hi : lo <= hi -> lo <= clamp v lo hi <= hi.
Proof. unfold clamp. intros. destruct (v <? lo) eqn:E; [lia|]. destruct (hi <? v) eqn:E2; lia. Qed.

Lemma get_user_table_ret l : get_user_table l = Ret (map (fun v => 8 * clamp v 1 2048) l).
Proof.
  unfold get_user_table. apply mapM_ret. intros v _. unfold nonzero.
  change (2 * 2 ^ 10) with 2048. change (2 ^ 3) with 8.
  pose proof (clamp_bounds v 1 2048 ltac:(lia)).
  rewrite wrap_u_id by (change (2 ^ 16) with 65536; lia).
  replace (clamp v 1 2048 * 8 =? 0) with false by lia. f_equal. lia.
Qed.

Lemma get_with_quality_ret l quality :
  get_with_quality l quality =
  Ret (map (fun v => 8 * clamp ((v * quality_scale quality + 50) / 100) 1 255) l).
Proof.
  unfold get_with_quality. apply mapM_ret. intros v _. unfold nonzero. change (2 ^ 3) with 8.
  pose proof (clamp_bounds ((v * quality_scale quality + 50) / 100) 1 255 ltac:(lia)).
  rewrite wrap_u_id by (change (2 ^ 16) with 65536; lia).
  replace (_ * 8 =? 0) with false by lia. f_equal. lia.
Qed.

Lemma builtin_table t luma : (forall l, t <> QCustom l) ->
  exists i l, qtype_index t = Ret i /\ base_table t luma = Some l /\
    index (if luma then DEFAULT_LUMA_TABLES else DEFAULT_CHROMA_TABLES) i = Ret l.
Proof.
  intros H. destruct t; try (exfalso; eapply H; reflexivity); destruct luma; do 2 eexists;
    (split; [reflexivity|]; split; reflexivity).
Qed.

Lemma new_with_quality_ret t quality luma : new_with_quality t quality luma = Ret (qtable_of t quality luma).
Proof.
  destruct (match t with QCustom _ => true | _ => false end) eqn:Ec.
  - destruct t as [| | | | | | | | |l]; try discriminate. unfold new_with_quality, qtable_of.
    rewrite get_user_table_ret. cbn [bind quantizers]. rewrite !map_map. reflexivity.
  - assert (Hc : forall l, t <> QCustom l) by (intros l ->; discriminate).
    destruct (builtin_table t luma Hc) as (i & l & Hi & Hb & Hl).
    assert (E : new_with_quality t quality luma =
      bind (get_with_quality l quality) (fun t => Ret {| qt_table := t;
         qt_reciprocals := map (fun v => fst (compute_reciprocal v)) t;
         qt_corrections := map (fun v => snd (compute_reciprocal v)) t |})).
    { unfold new_with_quality. destruct t; try discriminate; rewrite Hi; cbn [bind]; rewrite Hl; reflexivity. }
    rewrite E, get_with_quality_ret. cbn [bind]. unfold qtable_of.
    assert (Eq : quantizers t quality luma =
      map (fun v => clamp ((v * quality_scale quality + 50) / 100) 1 255) l).
    { unfold quantizers. destruct t; try discriminate; now rewrite Hb. }
    rewrite Eq, !map_map. reflexivity.
Qed.

Lemma qtable_of_ok t quality luma : qtype_ok t -> qtable_ok (qtable_of t quality luma).
Proof.
  intros Ht. unfold qtable_ok, qtable_of. cbn [qt_table qt_reciprocals qt_corrections].
  split; [|split; [|split; reflexivity]].
  - rewrite map_length. destruct t, luma; cbn [quantizers base_table]; rewrite map_length;
      try reflexivity; apply Ht.
  - apply Forall_forall. intros d Hd. apply in_map_iff in Hd as (v & <- & Hv).
    exists v. split; [|reflexivity].
    destruct t; cbn [quantizers] in Hv; apply in_map_iff in Hv as (v0 & <- & _);
      try (pose proof (clamp_bounds ((v0 * quality_scale quality + 50) / 100) 1 255 ltac:(lia)); lia);
      pose proof (clamp_bounds v0 1 2048 ltac:(lia)); lia.
Qed.
