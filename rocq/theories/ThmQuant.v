(** Quantization: properties C12, C13, C15, C16, C18. *)
From Verif Require Import PRound T81 ThmRound.
From Coq Require Import ZifyBool ZifyNat.

(** ** C13: quality and the built-in tables *)
Definition builtin (t : qtype) : Prop := match t with QCustom _ => False | _ => True end.

Lemma preset_length t luma : builtin t -> length (preset t luma) = 64%nat.
Proof. destruct t; intros []; destruct luma; reflexivity. Qed.
Lemma preset_pos t luma i : builtin t -> 0 <= nth (Z.to_nat i) (preset t luma) 0.
Proof.
  intros Ht. assert (H : Forall (fun v => 0 <= v) (preset t luma)).
  { assert (E : forallb (fun v => 0 <=? v) (preset t luma) = true) by (destruct t; destruct Ht; destruct luma; vm_compute; reflexivity).
    rewrite forallb_forall in E. apply Forall_forall. intros x Hx. specialize (E x Hx). lia. }
  destruct (Nat.lt_ge_cases (Z.to_nat i) (length (preset t luma))) as [Hl|Hl].
  - rewrite Forall_forall in H. apply H. now apply nth_In.
  - rewrite nth_overflow by lia. lia.
Qed.

Lemma scaled_range q v : 1 <= scaled q v <= 255.
Proof. unfold scaled. lia. Qed.

(** The code's table: divisor (times 8) and byte written to the file are the scaled preset. *)
Theorem C13_formula : forall t quality luma i, builtin t -> 0 <= i < 64 ->
  exists q, new_with_quality t quality luma = Ret q /\
    let v := nth (Z.to_nat i) (preset t luma) 0 in
    qt_get q i = scaled quality v /\ zn (qt_table q) i = 8 * scaled quality v /\ 1 <= scaled quality v <= 255.
Proof.
  intros t quality luma i Ht Hi. exists (qtable_of t quality luma). split; [apply new_with_quality_ret|]. cbv zeta.
  assert (Hok : qtype_ok t) by (destruct t; try exact I; destruct Ht).
  assert (H8 : qtype_8bit t) by (destruct t; try exact I; destruct Ht).
  assert (E : zn (qt_table (qtable_of t quality luma)) i = 8 * scaled quality (nth (Z.to_nat i) (preset t luma) 0)).
  { rewrite qt_table_entry by assumption. unfold quantizer_of. destruct t; try reflexivity. destruct Ht. }
  split; [|split; [exact E|apply scaled_range]].
  unfold qt_get. rewrite E. change (2 ^ 3) with 8. rewrite Z.mul_comm, Z.div_mul by lia.
  pose proof (scaled_range quality (nth (Z.to_nat i) (preset t luma) 0)). apply wrap_u_id. change (2 ^ 8) with 256. lia.
Qed.

Lemma percent_mono q1 q2 : q1 <= q2 -> percent q2 <= percent q1.
Proof.
  intros H. unfold percent. set (a := Z.max 1 (Z.min 100 q1)). set (b := Z.max 1 (Z.min 100 q2)).
  assert (Hab : 1 <= a <= b) by lia. assert (Hb : b <= 100) by lia. clearbody a b.
  destruct (a <? 50) eqn:Ea, (b <? 50) eqn:Eb; try lia.
  - apply Z.div_le_compat_l; lia.
  - assert (100 <= 5000 / a); [|lia]. apply Z.div_le_lower_bound; lia.
Qed.
(** A higher quality never increases a quantizer. *)
Theorem C13_monotone : forall t luma i quality1 quality2, builtin t -> quality1 <= quality2 ->
  quantizer_of t quality2 luma i <= quantizer_of t quality1 luma i.
Proof.
  intros t luma i q1 q2 Ht Hq. pose proof (preset_pos t luma i Ht) as Hp. pose proof (percent_mono q1 q2 Hq) as Hm.
  assert (E : forall q, quantizer_of t q luma i = scaled q (nth (Z.to_nat i) (preset t luma) 0)).
  { intros q. unfold quantizer_of. destruct t; try reflexivity. destruct Ht. }
  rewrite !E. unfold scaled. set (v := nth (Z.to_nat i) (preset t luma) 0) in *.
  assert ((v * percent q2 + 50) / 100 <= (v * percent q1 + 50) / 100); [|lia].
  apply Z.div_le_mono; [lia|]. nia.
Qed.
(** Quality 100 (or more) does not quantize beyond rounding. *)
Theorem C13_best : forall t luma i quality, builtin t -> 100 <= quality -> quantizer_of t quality luma i = 1.
Proof.
  intros t luma i q Ht Hq.
  replace (quantizer_of t q luma i) with (scaled q (nth (Z.to_nat i) (preset t luma) 0))
    by (unfold quantizer_of; destruct t; try reflexivity; destruct Ht).
  unfold scaled, percent. replace (Z.max 1 (Z.min 100 q)) with 100 by lia. cbn [Z.ltb Z.compare Pos.compare Pos.compare_cont].
  change (200 - 2 * 100) with 0. rewrite Z.mul_0_r. reflexivity.
Qed.
(** Quality 50 is the table itself (limited to 255). *)
Theorem C13_base : forall t luma i, builtin t -> 0 <= i < 64 ->
  quantizer_of t 50 luma i = Z.max 1 (Z.min 255 (nth (Z.to_nat i) (preset t luma) 0)).
Proof.
  intros t luma i Ht Hi. pose proof (preset_pos t luma i Ht).
  replace (quantizer_of t 50 luma i) with (scaled 50 (nth (Z.to_nat i) (preset t luma) 0))
    by (unfold quantizer_of; destruct t; try reflexivity; destruct Ht).
  unfold scaled. change (percent 50) with 100. set (v := nth _ _ _) in *.
  replace ((v * 100 + 50) / 100) with v; [reflexivity|]. apply (Z.div_unique _ _ _ 50); lia.
Qed.
Example C13_case : map (fun q => quantizer_of QDefault q true 63) [1; 10; 49; 50; 51; 75; 99; 100] = [255; 255; 101; 99; 97; 50; 2; 1].
Proof. vm_compute. reflexivity. Qed.

(** ** C12: the tables in the file *)
(** The decoded quantization table of each component consists of the divisors applied to its
    coefficients (see [expected] in SApi.v, which quantizes with 8 times these numbers), each in
    1..255. *)
Theorem C12_file_tables : forall P quality calls im pl,
  std_config quality calls -> valid_buffer P im pl ->
  let s := settings_of quality calls in
  exists bytes j, exec (run_encode_image P quality calls im) = (bytes, Ok tt) /\ decode bytes = Some j /\
    forall ci c, nth_error (comps_of (s_sampling s) (im_color im)) ci = Some c ->
    exists table, quant j ci = Some table /\ length table = 64%nat /\
      forall k, 0 <= k < 64 -> let '(v, u) := zigzag_pos k in
        let d := nth (Z.to_nat k) table 0 in
        1 <= d <= 255 /\ d = quantizer s (co_tq c) (Z.of_nat (8 * v + u)) /\
        forall by_ bx, 0 <= by_ < blocks_high (j_frame j) c -> 0 <= bx < blocks_wide (j_frame j) c ->
          coef j ci by_ bx k = Some (int_quantize (8 * d)
            (int_dct (block_sample pl (im_width im) (im_height im)
               (hmax (j_frame j) / co_h c) (vmax (j_frame j) / co_v c) ci by_ bx) v u)).
Proof.
  intros P quality calls im pl C V s.
  destruct (C01_round_trip_image P quality calls im pl C V) as (bytes & j & E & _ & D & A).
  exists bytes, j. split; [exact E|]. split; [exact D|]. fold s in A. intros ci c Hc.
  eexists. split; [apply (da_quant _ _ _ _ _ _ _ A ci c Hc)|]. split; [rewrite map_length; reflexivity|].
  intros k Hk. destruct (zigzag_pos k) as [v u] eqn:Z0.
  assert (Hd : nth (Z.to_nat k) (map (fun '(v0, u0) => quantizer s (co_tq c) (Z.of_nat (8 * v0 + u0))) zigzag) 0
               = quantizer s (co_tq c) (Z.of_nat (8 * v + u))).
  { set (f := fun '(v0, u0) => quantizer s (co_tq c) (Z.of_nat (8 * v0 + u0))).
    rewrite (nth_indep _ 0 (f (0%nat, 0%nat))).
    - rewrite (map_nth f). unfold zigzag_pos in Z0. rewrite Z0. reflexivity.
    - rewrite map_length. change (length zigzag) with 64%nat. lia. }
  cbv zeta. rewrite Hd. split; [|split; [reflexivity|]].
  - assert (Q : forall t l i, qtype_wf t -> table_8bit t -> 0 <= i < 64 -> 1 <= quantizer_of t (s_quality s) l i <= 255).
    { intros t l i Ht H8 Hi. unfold quantizer_of. destruct t; try apply scaled_range.
      cbn [table_8bit qtype_wf preset] in H8, Ht |- *. destruct Ht as [Hl Ht]. rewrite Forall_forall in H8.
      match goal with |- context [nth _ ?x 0] =>
        assert (Hlen : (Z.to_nat i < length x)%nat) by (rewrite Hl; lia); specialize (H8 _ (nth_In x 0 Hlen)) end. lia. }
    pose proof (settings_of_wf quality calls (sc_calls _ _ C)) as Hw.
    pose proof (zigzag_pos_range k Hk) as Hr. rewrite Z0 in Hr.
    unfold quantizer. destruct (co_tq c =? 0).
    + apply Q; [apply (sw_luma _ Hw)|apply (sc_luma _ _ C)|lia].
    + apply Q; [apply (sw_chroma _ Hw)|apply (sc_chroma _ _ C)|lia].
  - intros by_ bx Hy Hx. rewrite (da_coef _ _ _ _ _ _ _ A ci c by_ bx k Hc Hy Hx Hk).
    unfold expected. rewrite Z0. rewrite (da_frame _ _ _ _ _ _ _ A). reflexivity.
Qed.

(** Custom entries above 255: the divisor is the entry (up to 2048), the byte written to the file is the
    entry modulo 256. *)
Theorem C12_violated : forall l quality luma i,
  length l = 64%nat -> Forall is_u16 l -> 0 <= i < 64 -> 256 <= nth (Z.to_nat i) l 0 <= 2048 ->
  exists q, new_with_quality (QCustom l) quality luma = Ret q /\
    zn (qt_table q) i = 8 * nth (Z.to_nat i) l 0 /\
    qt_get q i = nth (Z.to_nat i) l 0 mod 256 /\ qt_get q i <> nth (Z.to_nat i) l 0.
Proof.
  intros l quality luma i Hl Hf Hi Hv. exists (qtable_of (QCustom l) quality luma). split; [apply new_with_quality_ret|].
  assert (E : zn (qt_table (qtable_of (QCustom l) quality luma)) i = 8 * nth (Z.to_nat i) l 0).
  { rewrite qt_table_entry.
    - unfold quantizer_of. cbn [preset]. lia.
    - split; [exact Hl|]. exact Hf.
    - exact Hi. }
  split; [exact E|]. unfold qt_get. rewrite E. change (2 ^ 3) with 8. rewrite Z.mul_comm, Z.div_mul by lia.
  unfold wrap_u. change (2 ^ 8) with 256. pose proof (Z.mod_pos_bound (nth (Z.to_nat i) l 0) 256 ltac:(lia)).
  split; [reflexivity|lia].
Qed.
(** Whole files: with all entries 300 the decoder finds quantizers 44; with all entries 256 it finds the
    forbidden value 0 and rejects the file. *)
Definition grey8 : list Z := map (fun i => (i * 37) mod 256) (zrange 64).
Example C12_violated_file :
  match exec (run_encode debug64 50 [CQuant (QCustom (repeat 300 64)) QDefault] grey8 8 8 Luma) with
  | (bytes, Ok tt) => match decode bytes with Some j => quant j 0 | None => None end
  | _ => None
  end = Some (repeat 44 64).
Proof. vm_compute. reflexivity. Qed.
Example C12_violated_zero :
  match exec (run_encode debug64 50 [CQuant (QCustom (repeat 256 64)) QDefault] grey8 8 8 Luma) with
  | (bytes, Ok tt) => Some (decode bytes)
  | _ => None
  end = Some None.
Proof. vm_compute. reflexivity. Qed.

(** ** C15: quantization error *)
Lemma recip_bounds d : 8 <= d <= 16384 ->
  2 <= recip d <= 4096 /\ 2 * Z.abs (recip d * d - 32768) <= d /\ d / 2 <= bias d <= d / 2 + 1.
Proof.
  intros Hd. pose proof (compute_reciprocal_bounds d Hd) as B. rewrite recip_eq in B by lia. exact B.
Qed.

(** Odd function, zero to zero, never the opposite sign, monotone. *)
Theorem C15_odd : forall d v, int_quantize d (- v) = - int_quantize d v.
Proof. intros d v. unfold int_quantize. rewrite Z.abs_opp, Z.sgn_opp. lia. Qed.
Theorem C15_zero : forall d, int_quantize d 0 = 0.
Proof. reflexivity. Qed.
Theorem C15_sign : forall d v, 8 <= d <= 16384 -> 0 <= v -> 0 <= int_quantize d v.
Proof.
  intros d v Hd Hv. pose proof (recip_bounds d Hd). unfold int_quantize.
  apply Z.mul_nonneg_nonneg; [lia|]. apply Z.div_pos; [|lia]. apply Z.mul_nonneg_nonneg; lia.
Qed.
Theorem C15_monotone : forall d v1 v2, 8 <= d <= 16384 -> v1 <= v2 -> int_quantize d v1 <= int_quantize d v2.
Proof.
  intros d v1 v2 Hd H. pose proof (recip_bounds d Hd) as B.
  assert (G : forall a b, 0 <= a <= b -> int_quantize d a <= int_quantize d b).
  { intros a b Hab. destruct (Z.eq_dec a 0) as [->|Ha]; [change (int_quantize d 0) with 0; apply C15_sign; lia|].
    unfold int_quantize. rewrite !Z.abs_eq, !Z.sgn_pos by lia. rewrite !Z.mul_1_l.
    apply Z.div_le_mono; [lia|]. apply Z.mul_le_mono_nonneg_r; lia. }
  destruct (Z_lt_dec v1 0) as [H1|H1].
  - destruct (Z_lt_dec v2 0) as [H2|H2].
    + pose proof (G (- v2) (- v1) ltac:(lia)) as K. rewrite !C15_odd in K. lia.
    + pose proof (C15_sign d v2 Hd ltac:(lia)). pose proof (C15_sign d (- v1) Hd ltac:(lia)) as K. rewrite C15_odd in K. lia.
  - apply G. lia.
Qed.

Lemma error_pos d a : 8 <= d <= 16384 -> 0 < a ->
  - (32768 * d + 65536 + (a + d / 2 + 1) * d) <= 65536 * (a - int_quantize d a * d) <= 32768 * d + 65536 + (a + d / 2 + 1) * d.
Proof.
  intros Hd Ha. pose proof (recip_bounds d Hd) as (Hr & He & Hb).
  unfold int_quantize. rewrite Z.abs_eq, Z.sgn_pos, Z.mul_1_l by lia. change (2 ^ 15) with 32768.
  set (c := bias d) in *. set (r := recip d) in *. clearbody c r.
  pose proof (Z.div_mod ((a + c) * r) 32768 ltac:(lia)) as E.
  pose proof (Z.mod_pos_bound ((a + c) * r) 32768 ltac:(lia)) as B.
  set (q := (a + c) * r / 32768) in *. set (m := ((a + c) * r) mod 32768) in *. clearbody q m.
  pose proof (Z.div_mod d 2 ltac:(lia)) as E2. pose proof (Z.mod_pos_bound d 2 ltac:(lia)) as B2.
  set (hd := d / 2) in *. set (md := d mod 2) in *. clearbody hd md.
  (* 65536 q d = 2 (a + c) r d - 2 m d *)
  assert (F : 65536 * (q * d) = 2 * ((a + c) * (r * d)) - 2 * (m * d)).
  { replace (2 * ((a + c) * (r * d))) with (2 * d * ((a + c) * r)) by ring. rewrite E. ring. }
  set (e := r * d - 32768) in *.
  assert (F2 : (a + c) * (r * d) = 32768 * (a + c) + (a + c) * e) by (unfold e; ring).
  assert (Ge : 2 * ((a + c) * e) <= (a + c) * d) by nia.
  assert (Ge2 : - ((a + c) * d) <= 2 * ((a + c) * e)) by nia.
  assert (Gm : 0 <= m * d <= 32767 * d) by nia.
  assert (Gc : (a + c) * d <= (a + hd + 1) * d) by nia.
  nia.
Qed.
(** |v - q d| <= d/2 + 1 + (|v| + d/2 + 1) d / 2^16 *)
Theorem C15_error : forall d v, 8 <= d <= 16384 ->
  65536 * Z.abs (v - int_quantize d v * d) <= 32768 * d + 65536 + (Z.abs v + d / 2 + 1) * d.
Proof.
  intros d v Hd.
  destruct (Z.lt_trichotomy v 0) as [Hv|[->|Hv]].
  - pose proof (error_pos d (- v) Hd ltac:(lia)) as K. rewrite C15_odd in K.
    rewrite (Z.abs_neq v) by lia. lia.
  - change (int_quantize d 0) with 0. assert (0 <= d / 2) by (apply Z.div_pos; lia). replace (0 - 0 * d) with 0 by ring. change (Z.abs 0) with 0. nia.
  - pose proof (error_pos d v Hd ltac:(lia)) as K. rewrite (Z.abs_eq v) by lia. lia.
Qed.

(** Rounding v/d to the nearest integer, halves away from zero. *)
Definition nearest (d v : Z) : Z := Z.sgn v * ((2 * Z.abs v + d) / (2 * d)).
(** For every i16 value the quantizer is off from the nearest integer by at most one... *)
Theorem C15_nearest_or_next : forall d v, 8 <= d <= 16384 -> -32768 <= v <= 32767 ->
  Z.abs (int_quantize d v - nearest d v) <= 1.
Proof.
  intros d v Hd Hv.
  assert (G : forall a, 0 < a <= 32768 -> Z.abs (int_quantize d a - nearest d a) <= 1).
  { intros a Ha. pose proof (error_pos d a Hd ltac:(lia)) as K. unfold nearest.
    rewrite (Z.abs_eq a), (Z.sgn_pos a), Z.mul_1_l by lia.
    pose proof (Z.div_mod (2 * a + d) (2 * d) ltac:(lia)) as E.
    pose proof (Z.mod_pos_bound (2 * a + d) (2 * d) ltac:(lia)) as B.
    set (n := (2 * a + d) / (2 * d)) in *. set (m := (2 * a + d) mod (2 * d)) in *. clearbody n m.
    assert (Hh : 2 * (d / 2) <= d) by (pose proof (Z.div_mod d 2 ltac:(lia)); pose proof (Z.mod_pos_bound d 2 ltac:(lia)); lia).
    set (q := int_quantize d a) in *. clearbody q. set (hd := d / 2) in *. clearbody hd.
    assert (K2 : (a + hd + 1) * d <= 40961 * d) by nia.
    assert (N : - d <= 2 * (a - n * d) < d) by lia.
    assert (Q : - (73729 * d + 65536) <= 65536 * (a - q * d) <= 73729 * d + 65536) by lia.
    assert (D : - (106497 * d + 65536) <= 65536 * ((q - n) * d) <= 106497 * d + 65536) by lia.
    assert (D2 : -131072 * d < 65536 * ((q - n) * d) < 131072 * d) by lia.
    assert (-2 < q - n < 2) by nia. lia. }
  destruct (Z.lt_trichotomy v 0) as [H|[->|H]].
  - pose proof (G (- v) ltac:(lia)) as K. rewrite C15_odd in K. unfold nearest in *. rewrite Z.abs_opp, Z.sgn_opp in K. lia.
  - cbn. lia.
  - apply G. lia.
Qed.
(** ... and exact when the divisor is a power of two (all table entries 1, 2, 4, .., in particular
    quality 100). *)
Theorem C15_exact_powers : forall k v, 3 <= k <= 14 -> int_quantize (2 ^ k) v = nearest (2 ^ k) v.
Proof.
  intros k v Hk. unfold int_quantize, nearest. f_equal.
  assert (Hp : 2 ^ k * 2 ^ (15 - k) = 2 ^ 15) by (rewrite <- Z.pow_add_r by lia; f_equal; lia).
  assert (H1 : 0 < 2 ^ k) by (apply Z.pow_pos_nonneg; lia). assert (H2 : 0 < 2 ^ (15 - k)) by (apply Z.pow_pos_nonneg; lia).
  assert (R : recip (2 ^ k) = 2 ^ (15 - k)).
  { unfold recip. rewrite <- Hp. symmetry. apply (Z.div_unique _ _ _ (2 ^ k - 1)); [lia|ring]. }
  unfold bias. rewrite R. replace (2 ^ (15 - k) * 2 ^ k) with (2 ^ 15) by lia. rewrite Z.ltb_irrefl, Z.add_0_r.
  rewrite <- Hp. rewrite Z.div_mul_cancel_r by lia.
  assert (E : 2 ^ k = 2 * (2 ^ k / 2)).
  { replace k with (1 + (k - 1)) by lia. rewrite Z.pow_add_r by lia. change (2 ^ 1) with 2.
    rewrite (Z.mul_comm 2), Z.div_mul by lia. ring. }
  rewrite E at 3. replace (2 * Z.abs v + 2 * (2 ^ k / 2)) with ((Z.abs v + 2 ^ k / 2) * 2) by ring.
  rewrite (Z.mul_comm 2 (2 ^ k)). rewrite Z.div_mul_cancel_r by lia. reflexivity.
Qed.
(** Rounding to nearest is not exact in general, also for reachable values: 7492/1000 gives 8. *)
Theorem C15_violated : int_quantize 1000 7492 = 8 /\ nearest 1000 7492 = 7.
Proof. split; reflexivity. Qed.

(** The code's quantizer is this function for every i16 value. *)
Theorem C15_code : forall P t quality luma v i, qtype_wf t -> 0 <= i < 64 -> -32768 <= v <= 32767 ->
  exists q, new_with_quality t quality luma = Ret q /\
    quantize P q v i = Ret (int_quantize (8 * quantizer_of t quality luma i) v) /\
    8 <= 8 * quantizer_of t quality luma i <= 16384.
Proof.
  intros P t quality luma v i Ht Hi Hv. exists (qtable_of t quality luma). split; [apply new_with_quality_ret|].
  assert (Hok : qtype_ok t) by (destruct t; exact Ht).
  pose proof (qtable_of_ok t quality luma Hok) as Hq. pose proof (qtable_entry _ i Hq Hi) as [Hd _].
  rewrite qt_table_entry in Hd by assumption. split; [|lia].
  rewrite quantize_ret by assumption. rewrite qt_table_entry by assumption. rewrite int_quantize_eq by lia. reflexivity.
Qed.

(** ** C16: no overflow, codable coefficients *)
Definition block_list (s : nat -> nat -> Z) : list Z :=
  map (fun i => s (Z.to_nat (i / 8)) (Z.to_nat (i mod 8))) (zrange 64).
Definition is_block (b : list Z) : Prop := length b = 64%nat /\ Forall (fun v => -128 <= v <= 127) b.

(** With overflow checks on, the transform of any block of level-shifted 8-bit samples does not panic,
    and no result is changed by the casts to i16: it is the exact integer transform. *)
Theorem C16_no_overflow : forall P s, (forall y x, (y < 8)%nat -> (x < 8)%nat -> -128 <= s y x <= 127) ->
  exists out, fdct P (block_list s) = Ret out /\ length out = 64%nat /\
    forall v u, (v < 8)%nat -> (u < 8)%nat ->
      nth (8 * v + u) out 0 = int_dct s v u /\
      (if (8 * v + u =? 0)%nat then -8192 <= int_dct s v u <= 8128 else -8160 <= int_dct s v u <= 8160).
Proof.
  intros P s Hs. assert (Hok : samples_ok (block_list s)).
  { split; [unfold block_list; rewrite map_length, zrange_length; reflexivity|]. apply Forall_forall. intros v Hv.
    apply in_map_iff in Hv as (i & <- & Hi). apply in_zrange in Hi.
    pose proof (Z.mod_pos_bound i 8 ltac:(lia)). assert (0 <= i / 8 < 8) by (split; [apply Z.div_pos; lia|apply Z.div_lt_upper_bound; lia]).
    apply Hs; lia. }
  exists (fdct_pure (block_list s)). split; [now apply fdct_ret|]. split; [apply fdct_pure_length|].
  intros v u Hv Hu. pose proof (fdct_is_int_dct s v u Hv Hu) as E.
  pose proof (fdct_bound (block_list s) (Z.of_nat (8 * v + u)) Hok ltac:(lia)) as B.
  change (block_of s) with (block_list s) in E. rewrite E in B. split.
  - unfold zn in E. rewrite Nat2Z.id in E. exact E.
  - replace (8 * v + u =? 0)%nat with (Z.of_nat (8 * v + u) =? 0) by lia. exact B.
Qed.
(** Number of bits of a magnitude (the "category" or SSSS of T.81 F.1.2). *)
Definition category (v : Z) : Z := if v =? 0 then 0 else Z.log2 (Z.abs v) + 1.
Lemma category_le v n : 0 <= n -> Z.abs v < 2 ^ n -> category v <= n.
Proof.
  intros Hn H. unfold category. destruct (v =? 0) eqn:E; [lia|].
  assert (Z.log2 (Z.abs v) < n) by (apply Z.log2_lt_pow2; lia). lia.
Qed.
(** Every quantized AC coefficient has category at most 10, and the difference of any two quantized DC
    coefficients has category at most 11: T.81's limits for 8-bit samples and the range of the standard
    tables. *)
Theorem C16_codable : forall d s1 s2, 8 <= d <= 16384 ->
  (forall y x, (y < 8)%nat -> (x < 8)%nat -> -128 <= s1 y x <= 127) ->
  (forall y x, (y < 8)%nat -> (x < 8)%nat -> -128 <= s2 y x <= 127) ->
  category (int_quantize d (int_dct s1 0 0)) <= 11 /\
  category (int_quantize d (int_dct s1 0 0) - int_quantize d (int_dct s2 0 0)) <= 11 /\
  forall v u, (v < 8)%nat -> (u < 8)%nat -> (8 * v + u <> 0)%nat ->
    category (int_quantize d (int_dct s1 v u)) <= 10.
Proof.
  intros d s1 s2 Hd H1 H2.
  destruct (C16_no_overflow debug64 s1 H1) as (o1 & _ & _ & B1). destruct (C16_no_overflow debug64 s2 H2) as (o2 & _ & _ & B2).
  pose proof (proj2 (B1 0%nat 0%nat ltac:(lia) ltac:(lia))) as D1. pose proof (proj2 (B2 0%nat 0%nat ltac:(lia) ltac:(lia))) as D2.
  cbn [Nat.mul Nat.add Nat.eqb] in D1, D2.
  pose proof (quant_pure_dc d _ Hd D1) as Q1. pose proof (quant_pure_dc d _ Hd D2) as Q2.
  rewrite int_quantize_eq in Q1, Q2 by lia. split; [|split].
  - apply category_le; [lia|]. change (2 ^ 11) with 2048. lia.
  - apply category_le; [lia|]. change (2 ^ 11) with 2048. lia.
  - intros v u Hv Hu Hn. apply category_le; [lia|]. rewrite <- int_quantize_eq by lia.
    apply quant_pure_ac; [exact Hd|]. pose proof (proj2 (B1 v u Hv Hu)) as K.
    replace (8 * v + u =? 0)%nat with false in K by lia. lia.
Qed.
Example C16_case : int_dct (fun y x => if Nat.even (y + x) then 127 else -128) 7 7 = 6700.
Proof. vm_compute. reflexivity. Qed.

(** ** C18: flat blocks *)
Lemma flat_row y u c : (u < 8)%nat -> row_dct (fun _ _ => c) y u = if (u =? 0)%nat then 32 * c else 0.
Proof.
  intros Hu. unfold row_dct, sum8.
  do 8 (destruct u as [|u]; [unfold dct_entry, dct_matrix; cbn [nth Nat.eqb]; unfold round_shift;
    change (2 ^ (11 - 1)) with 1024; change (2 ^ 11) with 2048;
    symmetry; apply (Z.div_unique _ _ _ 1024); lia|]). lia.
Qed.
Theorem C18_flat_transform : forall c v u, (v < 8)%nat -> (u < 8)%nat ->
  int_dct (fun _ _ => c) v u = if (8 * v + u =? 0)%nat then 64 * c else 0.
Proof.
  intros c v u Hv Hu. unfold int_dct, sum8.
  rewrite !(flat_row _ u c Hu).
  do 8 (destruct v as [|v]; [unfold dct_entry, dct_matrix; cbn [nth]; unfold round_shift;
    change (2 ^ (15 - 1)) with 16384; change (2 ^ 15) with 32768;
    destruct u as [|u]; cbn [Nat.mul Nat.add Nat.eqb]; symmetry; apply (Z.div_unique _ _ _ 16384); lia|]). lia.
Qed.
(** Coded: no AC coefficients; the DC coefficient reproduces the (level shifted) sample value [c] as
    q/8 of the quantizer (T.81 A.3.3: a DC coefficient S means the sample value S/8), with an error of at
    most half a step plus the reciprocal's inaccuracy. *)
Theorem C18_flat : forall q0 q c v u, -128 <= c <= 127 -> 1 <= q0 <= 2048 -> 1 <= q <= 2048 -> (v < 8)%nat -> (u < 8)%nat ->
  ((8 * v + u <> 0)%nat -> int_quantize (8 * q) (int_dct (fun _ _ => c) v u) = 0) /\
  65536 * Z.abs (8 * c - int_quantize (8 * q0) (int_dct (fun _ _ => c) 0 0) * q0)
    <= 32768 * q0 + 8192 + (64 * Z.abs c + 4 * q0 + 1) * q0.
Proof.
  intros q0 q c v u Hc Hq0 Hq Hv Hu. split.
  - intros Hn. rewrite C18_flat_transform by assumption. replace (8 * v + u =? 0)%nat with false by lia. reflexivity.
  - rewrite (C18_flat_transform c 0 0) by lia. cbn [Nat.mul Nat.add Nat.eqb].
    pose proof (C15_error (8 * q0) (64 * c) ltac:(lia)) as K.
    replace (8 * q0 / 2) with (4 * q0) in K by (replace (8 * q0) with (4 * q0 * 2) by lia; rewrite Z.div_mul; lia).
    replace (64 * c - int_quantize (8 * q0) (64 * c) * (8 * q0)) with (8 * (8 * c - int_quantize (8 * q0) (64 * c) * q0)) in K by ring.
    rewrite Z.abs_mul in K. replace (Z.abs (64 * c)) with (64 * Z.abs c) in K by (rewrite Z.abs_mul; reflexivity).
    set (X := Z.abs (8 * c - int_quantize (8 * q0) (64 * c) * q0)) in *. change (Z.abs 8) with 8 in K. nia.
Qed.
Example C18_case : int_quantize (8 * 16) (int_dct (fun _ _ => 100) 0 0) = 50.
Proof. vm_compute. reflexivity. Qed.
