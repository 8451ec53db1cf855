(** The bit writer refines "append bits to a bit string": proofs for src/writer.rs:97-161. *)
From Verif Require Export PExec MWriter.
From Verif Require Import T81.
From Coq Require Import ZifyBool ZifyNat.
Local Ltac Zify.zify_post_hook ::= Z.div_mod_to_equations.

(** ** Bit strings *)
Lemma bits_of_length n v : length (bits_of n v) = n.
Proof. induction n; cbn; auto. Qed.

Lemma bits_of_ext n a b :
  (forall i, 0 <= i < Z.of_nat n -> Z.testbit a i = Z.testbit b i) -> bits_of n a = bits_of n b.
Proof.
  induction n as [|n IH]; intros H; cbn; [reflexivity|].
  f_equal; [apply H; lia|apply IH; intros; apply H; lia].
Qed.

Lemma bits_of_app n m v : bits_of (n + m) v = bits_of n (v / 2 ^ Z.of_nat m) ++ bits_of m v.
Proof.
  induction n as [|n IH]; cbn [bits_of app Nat.add]; [reflexivity|].
  rewrite IH. f_equal. rewrite <- Z.shiftr_div_pow2, Z.shiftr_spec by lia. f_equal. lia.
Qed.

Lemma testbit_mod_low v n i : 0 <= i < n -> Z.testbit (v mod 2 ^ n) i = Z.testbit v i.
Proof. intros. apply Z.mod_pow2_bits_low. lia. Qed.

Lemma bits_of_mod n m v : (m <= n)%nat -> bits_of m (v mod 2 ^ Z.of_nat n) = bits_of m v.
Proof. intros. apply bits_of_ext. intros. apply testbit_mod_low. lia. Qed.

Lemma testbit_small v n i : 0 <= v < 2 ^ n -> n <= i -> 0 <= n -> Z.testbit v i = false.
Proof.
  intros H Hi Hn. rewrite <- (Z.mod_small v (2 ^ n)) by lia. apply Z.mod_pow2_bits_high. lia.
Qed.

(** Appending: high part shifted, low part or-ed in. *)
Lemma bits_of_lor (U : Z) n m a b :
  0 <= b < 2 ^ Z.of_nat m -> Z.of_nat (n + m) <= U ->
  bits_of (n + m) (Z.lor ((a * 2 ^ Z.of_nat m) mod 2 ^ U) b) = bits_of n a ++ bits_of m b.
Proof.
  intros Hb HU. rewrite bits_of_app. f_equal.
  - apply bits_of_ext. intros i Hi.
    rewrite <- Z.shiftr_div_pow2, Z.shiftr_spec, Z.lor_spec by lia.
    rewrite (testbit_small b (Z.of_nat m)) by lia. rewrite orb_false_r.
    rewrite testbit_mod_low by lia.
    rewrite <- Z.shiftl_mul_pow2, Z.shiftl_spec by lia. f_equal; lia.
  - apply bits_of_ext. intros i Hi. rewrite Z.lor_spec, testbit_mod_low by lia.
    rewrite <- Z.shiftl_mul_pow2, Z.shiftl_spec_low by lia. reflexivity.
Qed.

Lemma value_of_app l1 l2 :
  value_of (l1 ++ l2) = value_of l1 * 2 ^ Z.of_nat (length l2) + value_of l2.
Proof.
  unfold value_of. rewrite fold_left_app. generalize (fold_left (fun a b => 2 * a + Z.b2z b) l1 0).
  induction l2 as [|b l2 IH]; intros acc.
  - cbn. lia.
  - change (length (b :: l2)) with (S (length l2)). cbn [fold_left].
    rewrite IH, (IH (2 * 0 + Z.b2z b)). rewrite Nat2Z.inj_succ, Z.pow_succ_r by lia. ring.
Qed.

Lemma value_of_bits_of n v : value_of (bits_of n v) = v mod 2 ^ Z.of_nat n.
Proof.
  induction n as [|n IH].
  - cbn. now rewrite Z.mod_1_r.
  - cbn [bits_of]. change (?a :: ?l) with ([a] ++ l). rewrite value_of_app, IH, bits_of_length.
    unfold value_of. cbn [fold_left].
    rewrite Nat2Z.inj_succ, Z.pow_succ_r by lia.
    rewrite Z.testbit_spec' by lia.
    rewrite (Z.mul_comm 2 (2 ^ Z.of_nat n)), Z.rem_mul_r by lia. lia.
Qed.

Lemma bits_of_bytes_app a b : bits_of_bytes (a ++ b) = bits_of_bytes a ++ bits_of_bytes b.
Proof. unfold bits_of_bytes. apply flat_map_app. Qed.

Lemma be_bytes_length n v : length (be_bytes n v) = n.
Proof. induction n; cbn; auto. Qed.

Lemma bits_of_be_bytes n v : bits_of_bytes (be_bytes n v) = bits_of (8 * n) v.
Proof.
  induction n as [|n IH]; [reflexivity|].
  cbn [be_bytes]. change (?a :: ?l) with ([a] ++ l). rewrite bits_of_bytes_app, IH.
  replace (8 * S n)%nat with (8 + 8 * n)%nat by lia. rewrite bits_of_app. f_equal.
  unfold bits_of_bytes. cbn [flat_map]. rewrite app_nil_r.
  replace (8 * Z.of_nat n) with (Z.of_nat (8 * n)) by lia.
  change 256 with (2 ^ Z.of_nat 8). apply bits_of_mod. lia.
Qed.

Definition bytes_ok (l : list Z) : Prop := Forall (fun b => 0 <= b < 256) l.

Lemma be_bytes_ok n v : bytes_ok (be_bytes n v).
Proof. induction n; cbn; constructor; auto. apply Z.mod_pos_bound. lia. Qed.

(** ** Byte stuffing *)
Definition stuff (l : list Z) : list Z := flat_map (fun b => if b =? 255 then [255; 0] else [b]) l.

Lemma stuff_app a b : stuff (a ++ b) = stuff a ++ stuff b.
Proof. apply flat_map_app. Qed.

Lemma stuff_id l : Forall (fun b => b <> 255) l -> stuff l = l.
Proof.
  induction 1 as [|b l Hb Hl IH]; cbn; [reflexivity|].
  destruct (b =? 255) eqn:E; [lia|]. cbn. now f_equal.
Qed.

Lemma stuff_bytes_ok l : bytes_ok l -> bytes_ok (stuff l).
Proof.
  induction 1 as [|b l Hb Hl IH]; cbn; [constructor|].
  apply Forall_app. split; [|assumption]. destruct (b =? 255); repeat constructor; lia.
Qed.

(** ** flush_byte *)
Lemma land_255 v : Z.land v 255 = v mod 256.
Proof. change 255 with (Z.ones 8). now rewrite Z.land_ones by lia. Qed.

Lemma plat_bits P : plat_ok P -> 32 <= ubits P <= 64.
Proof. intros [->| ->]; lia. Qed.

Lemma emits_flush_byte P buf fb :
  plat_ok P -> 0 <= fb <= ubits P - 8 ->
  emits (flush_byte P buf fb) (stuff [(buf / 2 ^ (ubits P - 8 - fb)) mod 256]) tt.
Proof.
  intros HP H. pose proof (plat_bits P HP) as HU. unfold flush_byte, BUFFER_SIZE.
  eapply emits_bind0; [apply emits_ck_s; cbn; lia|].
  eapply emits_bind0; [apply emits_shr; lia|].
  cbv zeta. change 0xFF with 255. rewrite land_255. cbn [stuff flat_map].
  destruct (_ =? 255) eqn:E.
  - apply Z.eqb_eq in E. rewrite E. change ([255; 0] ++ []) with ([255] ++ [0]).
    eapply emits_bind; apply emits_write_all.
  - eapply emits_bind; [apply emits_write_all|apply emits_ret].
Qed.

(** ** write_bit_buffer *)
Lemma be_bytes_snoc n v : be_bytes (S n) v = be_bytes n (v / 256) ++ [v mod 256].
Proof.
  induction n as [|n IH].
  - cbn. rewrite Z.div_1_r. reflexivity.
  - cbn [be_bytes app] in *. f_equal; [|exact IH].
    rewrite Z.div_div by lia. f_equal. f_equal.
    change 256 with (2 ^ 8) at 1. rewrite <- Z.pow_add_r by lia. f_equal. lia.
Qed.

Lemma flush_loop P buf n :
  plat_ok P -> 0 <= Z.of_nat n <= ubits P / 8 ->
  emits (foldM (fun _ i => flush_byte P buf (i * 8)) (zrange (Z.of_nat n)) tt)
        (stuff (be_bytes n (buf / 2 ^ (ubits P - 8 * Z.of_nat n)))) tt.
Proof.
  intros HP. induction n as [|n IH]; intros Hn.
  - apply emits_ret.
  - replace (Z.of_nat (S n)) with (Z.of_nat n + 1) by lia. rewrite zrange_succ by lia.
    rewrite be_bytes_snoc, stuff_app. eapply foldM_app.
    + replace (buf / 2 ^ (ubits P - 8 * (Z.of_nat n + 1)) / 256)
        with (buf / 2 ^ (ubits P - 8 * Z.of_nat n)).
      * apply IH. lia.
      * change 256 with (2 ^ 8). rewrite Z.div_div by (try apply Z.pow_nonzero; lia).
        rewrite <- Z.pow_add_r by lia. do 2 f_equal. lia.
    + cbn [foldM]. rewrite <- (app_nil_r (stuff _)). eapply emits_bind; [|apply emits_ret].
      replace (ubits P - 8 * (Z.of_nat n + 1)) with (ubits P - 8 - Z.of_nat n * 8) by lia.
      apply emits_flush_byte; [assumption|lia].
Qed.

Lemma testbit_ones_sub U s i :
  0 <= s < 2 ^ U -> 0 <= i < U -> Z.testbit (2 ^ U - 1 - s) i = negb (Z.testbit s i).
Proof.
  intros Hs Hi. replace (2 ^ U - 1) with (Z.ones U) by (rewrite Z.ones_equiv; lia).
  rewrite Z.sub_nocarry_ldiff.
  - rewrite Z.ldiff_spec, Z.ones_spec_low by lia. reflexivity.
  - apply Z.bits_inj'. intros k Hk. rewrite Z.ldiff_spec, Z.bits_0.
    destruct (Z_lt_dec k U).
    + rewrite Z.ones_spec_low by lia. now rewrite andb_false_r.
    + rewrite (testbit_small s U k) by lia. reflexivity.
Qed.

Lemma testbit_of_byte v k b :
  0 <= k -> (v / 2 ^ k) mod 256 = b -> Z.testbit v (k + 7) = (128 <=? b).
Proof.
  intros Hk <-. replace (k + 7) with (7 + k) by lia. rewrite <- Z.shiftr_spec by lia.
  rewrite Z.shiftr_div_pow2 by lia. set (x := v / 2 ^ k). clearbody x.
  rewrite <- (Z.mod_pow2_bits_low x 8 7) by lia. change (2 ^ 8) with 256.
  pose proof (Z.mod_pos_bound x 256 ltac:(lia)) as Hb. set (y := x mod 256) in *. clearbody y.
  rewrite Z.testbit_odd, Z.shiftr_div_pow2 by lia. change (2 ^ 7) with 128.
  destruct (128 <=? y) eqn:E.
  - replace (y / 128) with 1 by lia. reflexivity.
  - replace (y / 128) with 0 by lia. reflexivity.
Qed.

(** The carry trick: a byte 0xFF of [buf] makes the corresponding test bit of the sum 0. *)
Lemma carry_byte buf m U k :
  0 <= k -> k + 8 <= U -> 0 <= buf -> 0 <= m ->
  (buf / 2 ^ k) mod 256 = 255 -> (m / 2 ^ k) mod 256 = 1 ->
  ((buf + m) mod 2 ^ U / 2 ^ k) mod 256 = 0 \/ ((buf + m) mod 2 ^ U / 2 ^ k) mod 256 = 1.
Proof.
  intros Hk HU Hbuf Hm Hb H1.
  replace (2 ^ U) with (2 ^ k * (256 * 2 ^ (U - k - 8))).
  2:{ change 256 with (2 ^ 8). rewrite <- !Z.pow_add_r by lia. f_equal. lia. }
  assert (Hp : 0 < 2 ^ k) by (apply Z.pow_pos_nonneg; lia).
  assert (Hq : 0 < 2 ^ (U - k - 8)) by (apply Z.pow_pos_nonneg; lia).
  rewrite Z.rem_mul_r by lia.
  rewrite Z.add_comm, Z.mul_comm, Z.div_add_l by lia.
  rewrite (Z.div_small ((buf + m) mod 2 ^ k)) by (apply Z.mod_pos_bound; lia).
  rewrite Z.add_0_r. rewrite Z.rem_mul_r by lia.
  rewrite Z.add_mod, (Z.mul_comm 256), Z.mod_mul, Z.add_0_r, !Z.mod_mod by lia.
  set (q := 2 ^ k) in *. clearbody q.
  assert (HB := Z.div_mod buf q ltac:(lia)). assert (HM := Z.div_mod m q ltac:(lia)).
  assert (Hbr := Z.mod_pos_bound buf q ltac:(lia)). assert (Hmr := Z.mod_pos_bound m q ltac:(lia)).
  set (b := buf / q) in *. set (c := m / q) in *. set (br := buf mod q) in *.
  set (mr := m mod q) in *. clearbody b c br mr.
  replace (buf + m) with ((b + c) * q + (br + mr)) by lia.
  rewrite Z.div_add_l by lia.
  assert ((br + mr) / q = 0 \/ (br + mr) / q = 1) as [-> | ->].
  { destruct (Z_lt_dec (br + mr) q); [left; apply Z.div_small; lia|].
    right. symmetry. apply (Z.div_unique _ _ _ (br + mr - q)); lia. }
  - left. lia.
  - right. lia.
Qed.

Lemma be_bytes_nth n v i : (i < n)%nat ->
  nth i (be_bytes n v) 0 = (v / 2 ^ (8 * Z.of_nat (n - 1 - i))) mod 256.
Proof.
  revert i. induction n as [|n IH]; intros i Hi; [lia|].
  destruct i as [|i]; cbn [be_bytes nth].
  - do 3 f_equal. lia.
  - rewrite IH by lia. do 4 f_equal. lia.
Qed.

Lemma no_false_negative P buf :
  plat_ok P -> 0 <= buf < 2 ^ ubits P ->
  Z.land (Z.land buf (mask80 P)) (2 ^ ubits P - 1 - wrap_u (ubits P) (buf + mask01 P)) = 0 ->
  Forall (fun b => b <> 255) (be_bytes (Z.to_nat (ubits P / 8)) buf).
Proof.
  intros HP Hbuf H0. apply Forall_forall. intros b Hin ->.
  apply (In_nth _ _ 0) in Hin as (i & Hi & Hb).
  rewrite be_bytes_length in Hi. rewrite be_bytes_nth in Hb by assumption.
  set (j := Z.of_nat (Z.to_nat (ubits P / 8) - 1 - i)) in *.
  pose proof (plat_bits P HP) as HU.
  assert (Hj : 0 <= j < ubits P / 8) by lia. clearbody j.
  assert (M01 : (mask01 P / 2 ^ (8 * j)) mod 256 = 1 /\ 0 <= mask01 P).
  { unfold mask01, wrap_u. destruct HP as [E|E]; rewrite E in *; clear - Hj.
    - assert (j = 0 \/ j = 1 \/ j = 2 \/ j = 3) as D by (change (32/8) with 4 in Hj; lia).
      repeat (destruct D as [->|D]; [split; [reflexivity|vm_compute; discriminate]|]).
      subst. split; [reflexivity|vm_compute; discriminate].
    - assert (j = 0 \/ j = 1 \/ j = 2 \/ j = 3 \/ j = 4 \/ j = 5 \/ j = 6 \/ j = 7) as D
        by (change (64/8) with 8 in Hj; lia).
      repeat (destruct D as [->|D]; [split; [reflexivity|vm_compute; discriminate]|]).
      subst. split; [reflexivity|vm_compute; discriminate]. }
  assert (M80 : (mask80 P / 2 ^ (8 * j)) mod 256 = 128).
  { unfold mask80, wrap_u. destruct HP as [E|E]; rewrite E in *; clear - Hj.
    - assert (j = 0 \/ j = 1 \/ j = 2 \/ j = 3) as D by (change (32/8) with 4 in Hj; lia).
      repeat (destruct D as [->|D]; [reflexivity|]). now subst.
    - assert (j = 0 \/ j = 1 \/ j = 2 \/ j = 3 \/ j = 4 \/ j = 5 \/ j = 6 \/ j = 7) as D
        by (change (64/8) with 8 in Hj; lia).
      repeat (destruct D as [->|D]; [reflexivity|]). now subst. }
  assert (HT : Z.testbit (Z.land (Z.land buf (mask80 P))
                 (2 ^ ubits P - 1 - wrap_u (ubits P) (buf + mask01 P))) (8 * j + 7) = true).
  { rewrite !Z.land_spec. rewrite testbit_ones_sub.
    2:{ unfold wrap_u. apply Z.mod_pos_bound. apply Z.pow_pos_nonneg; lia. }
    2:{ lia. }
    rewrite (testbit_of_byte buf (8 * j) 255) by (assumption || lia).
    rewrite (testbit_of_byte (mask80 P) (8 * j) 128) by (assumption || lia).
    unfold wrap_u.
    destruct (carry_byte buf (mask01 P) (ubits P) (8 * j)) as [E|E]; try tauto; try lia;
      rewrite (testbit_of_byte _ (8 * j) _ ltac:(lia) E); reflexivity. }
  rewrite H0, Z.bits_0 in HT. discriminate.
Qed.

Lemma emits_write_bit_buffer P buf :
  plat_ok P -> 0 <= buf < 2 ^ ubits P ->
  emits (write_bit_buffer P buf) (stuff (be_bytes (Z.to_nat (ubits P / 8)) buf)) tt.
Proof.
  intros HP Hbuf. pose proof (plat_bits P HP) as HU. unfold write_bit_buffer.
  destruct (_ =? 0) eqn:E; cbn [negb].
  - apply Z.eqb_eq in E. rewrite stuff_id by now apply no_false_negative. apply emits_write_all.
  - unfold BUFFER_SIZE.
    pose proof (flush_loop P buf (Z.to_nat (ubits P / 8)) HP ltac:(lia)) as HF.
    rewrite Z2Nat.id in HF by lia.
    replace (ubits P - 8 * (ubits P / 8)) with 0 in HF by (destruct HP as [->| ->]; reflexivity).
    change (2 ^ 0) with 1 in HF. rewrite Z.div_1_r in HF. exact HF.
Qed.

(** ** write_bits: appending bits to the pending bit string *)
(** The writer holds the pending bits [pend] in the low bits of its buffer. *)
Definition rep (P : platform) (w : bitw) (pend : list bool) : Prop :=
  0 <= free_bits w <= ubits P /\ Z.of_nat (length pend) = ubits P - free_bits w /\
  bits_of (length pend) (bit_buffer w) = pend /\ 0 <= bit_buffer w < 2 ^ ubits P.

Lemma rep_new P : plat_ok P -> rep P (bitw_new P) [].
Proof.
  intros HP. pose proof (plat_bits P HP). unfold rep, bitw_new, BUFFER_SIZE. cbn.
  repeat split; try lia.
Qed.

Lemma lor_bound a b n : 0 <= n -> 0 <= a < 2 ^ n -> 0 <= b < 2 ^ n -> 0 <= Z.lor a b < 2 ^ n.
Proof.
  intros Hn Ha Hb. split; [apply Z.lor_nonneg; lia|].
  assert (Hp : 0 < 2 ^ n) by (apply Z.pow_pos_nonneg; lia).
  assert (H0 : Z.lor a b / 2 ^ n = 0).
  { rewrite <- Z.shiftr_div_pow2, Z.shiftr_lor, !Z.shiftr_div_pow2 by lia.
    rewrite !Z.div_small by lia. reflexivity. }
  apply Z.div_small_iff in H0; [|lia]. lia.
Qed.

Lemma emits_write_bits P w pend v size :
  plat_ok P -> rep P w pend -> 0 <= Z.of_nat size <= 31 -> 0 <= v < 2 ^ Z.of_nat size ->
  exists w' data pend', emits (write_bits P w v (Z.of_nat size)) (stuff data) w' /\
    bytes_ok data /\ rep P w' pend' /\ pend ++ bits_of size v = bits_of_bytes data ++ pend'.
Proof.
  intros HP (Hfb & Hlen & Hbits & Hbuf) Hs Hv. pose proof (plat_bits P HP) as HU.
  assert (Hv' : 0 <= v < 2 ^ ubits P).
  { split; [lia|]. eapply Z.lt_le_trans; [apply Hv|]. apply Z.pow_le_mono_r; lia. }
  unfold write_bits. rewrite (wrap_s_id 8) by (cbn; lia). rewrite (wrap_u_id (ubits P) v) by lia.
  cbv zeta. rewrite ck_s_ret by (cbn; lia). cbn [bind].
  destruct (free_bits w - Z.of_nat size <? 0) eqn:E.
  - apply Z.ltb_lt in E.
    rewrite ck_s_ret by (cbn; lia). cbn [bind].
    replace (Z.of_nat size + (free_bits w - Z.of_nat size)) with (free_bits w) by lia.
    set (fr := Z.to_nat (free_bits w)).
    assert (Hfr : Z.of_nat fr = free_bits w) by lia.
    set (rest := (size - fr)%nat).
    set (nb := Z.lor (wrap_u (ubits P) (bit_buffer w * 2 ^ free_bits w)) (v / 2 ^ Z.of_nat rest)).
    assert (Hlo : 0 <= v / 2 ^ Z.of_nat rest < 2 ^ Z.of_nat fr).
    { split; [apply Z.div_pos; [lia|apply Z.pow_pos_nonneg; lia]|].
      apply Z.div_lt_upper_bound; [apply Z.pow_pos_nonneg; lia|].
      rewrite <- Z.pow_add_r by lia. replace (Z.of_nat rest + Z.of_nat fr) with (Z.of_nat size) by lia.
      lia. }
    assert (Hnb : 0 <= nb < 2 ^ ubits P).
    { apply lor_bound; [lia| |].
      - unfold wrap_u. apply Z.mod_pos_bound. apply Z.pow_pos_nonneg; lia.
      - split; [lia|]. eapply Z.lt_le_trans; [apply Hlo|]. apply Z.pow_le_mono_r; lia. }
    exists {| bit_buffer := v; free_bits := free_bits w - Z.of_nat size + BUFFER_SIZE P |},
           (be_bytes (Z.to_nat (ubits P / 8)) nb), (bits_of rest v).
    split; [|split; [|split]].
    + eapply emits_bind0; [apply emits_shl; lia|].
      rewrite ck_s_ret by (cbn; lia). cbn [bind].
      replace (- (free_bits w - Z.of_nat size)) with (Z.of_nat rest) by lia.
      eapply emits_bind0; [apply emits_shr; lia|].
      rewrite <- (app_nil_r (stuff _)). eapply emits_bind; [now apply emits_write_bit_buffer|].
      unfold BUFFER_SIZE. rewrite ck_s_ret by (cbn; lia). cbn [bind]. apply emits_ret.
    + apply be_bytes_ok.
    + unfold rep. cbn [bit_buffer free_bits]. unfold BUFFER_SIZE. rewrite bits_of_length.
      repeat split; try lia.
    + rewrite bits_of_be_bytes.
      replace (8 * Z.to_nat (ubits P / 8))%nat with (length pend + fr)%nat
        by (destruct HP as [HE|HE]; rewrite HE in *;
            change (Z.to_nat (32 / 8)) with 4%nat || change (Z.to_nat (64 / 8)) with 8%nat; lia).
      unfold nb, wrap_u. rewrite <- Hfr. rewrite bits_of_lor by lia.
      rewrite Hbits, <- app_assoc. f_equal.
      replace size with (fr + rest)%nat at 1 by lia. apply bits_of_app.
  - apply Z.ltb_ge in E.
    exists {| bit_buffer := Z.lor (wrap_u (ubits P) (bit_buffer w * 2 ^ Z.of_nat size)) v;
              free_bits := free_bits w - Z.of_nat size |}, [], (pend ++ bits_of size v).
    split; [|split; [constructor|split; [|reflexivity]]].
    + cbn [stuff flat_map]. eapply emits_bind0; [apply emits_shl; lia|]. apply emits_ret.
    + unfold rep. cbn [bit_buffer free_bits]. rewrite app_length, bits_of_length.
      split; [lia|]. split; [lia|]. split.
      * unfold wrap_u. rewrite bits_of_lor by lia. now rewrite Hbits.
      * apply lor_bound; try lia. unfold wrap_u. apply Z.mod_pos_bound. apply Z.pow_pos_nonneg; lia.
Qed.

(** ** finalize_bit_buffer *)
Lemma emits_flush P : forall n w pend fuel,
  plat_ok P -> rep P w pend -> (length pend / 8 <= n)%nat -> (n < fuel)%nat ->
  exists w' data pend', emits (flush_bit_buffer P fuel w) (stuff data) w' /\ bytes_ok data /\
    (length pend' < 8)%nat /\ pend = bits_of_bytes data ++ pend'.
Proof.
  intros n. induction n as [|n IH]; intros w pend fuel HP Hrep Hn Hf;
    (destruct fuel as [|fuel]; [lia|]); pose proof (plat_bits P HP) as HU;
    destruct Hrep as (Hfb & Hlen & Hbits & Hbuf); cbn [flush_bit_buffer]; unfold BUFFER_SIZE.
  - destruct (free_bits w <=? ubits P - 8) eqn:E.
    + exfalso. apply Z.leb_le in E. assert (8 <= length pend)%nat as H8 by lia. 
      pose proof (Nat.div_le_mono 8 (length pend) 8 ltac:(lia) H8) as H9.
      change (8 / 8)%nat with 1%nat in H9. lia.
    + exists w, [], pend. apply Z.leb_gt in E.
      split; [apply emits_ret|]. split; [constructor|]. split; [lia|reflexivity].
  - destruct (free_bits w <=? ubits P - 8) eqn:E.
    + apply Z.leb_le in E.
      set (m := (length pend - 8)%nat).
      assert (Hm : length pend = (8 + m)%nat) by lia.
      assert (Hp : pend = bits_of 8 (bit_buffer w / 2 ^ Z.of_nat m) ++ bits_of m (bit_buffer w)).
      { rewrite <- bits_of_app, <- Hm. now symmetry. }
      destruct (IH {| bit_buffer := bit_buffer w; free_bits := free_bits w + 8 |}
                   (bits_of m (bit_buffer w)) fuel HP) as (w' & data & pend' & He & Hok & Hl & Hd).
      * unfold rep. cbn [bit_buffer free_bits]. rewrite bits_of_length. repeat split; try lia.
      * rewrite bits_of_length. rewrite Hm in Hn.
        replace (8 + m)%nat with (m + 1 * 8)%nat in Hn by lia.
        rewrite Nat.div_add in Hn by lia. lia.
      * lia.
      * exists w', ((bit_buffer w / 2 ^ Z.of_nat m) mod 256 :: data), pend'.
        split; [|split; [|split; [assumption|]]].
        -- change (?a :: data) with ([a] ++ data). rewrite stuff_app.
           eapply emits_bind.
           ++ replace (Z.of_nat m) with (ubits P - 8 - free_bits w) by lia.
              apply emits_flush_byte; [assumption|lia].
           ++ eapply emits_bind0; [apply emits_ck_s; cbn; lia|]. exact He.
        -- constructor; [|assumption]. apply Z.mod_pos_bound. lia.
        -- change (?a :: data) with ([a] ++ data). rewrite bits_of_bytes_app, <- app_assoc, <- Hd.
           rewrite Hp at 1. f_equal. unfold bits_of_bytes. cbn [flat_map]. rewrite app_nil_r.
           change 256 with (2 ^ Z.of_nat 8). symmetry. apply bits_of_mod. lia.
    + exists w, [], pend. apply Z.leb_gt in E.
      split; [apply emits_ret|]. split; [constructor|]. split; [lia|reflexivity].
Qed.

Lemma app_split_suffix {A} (a b c d : list A) :
  a ++ b = c ++ d -> (length d <= length b)%nat -> exists e, c = a ++ e /\ b = e ++ d.
Proof.
  intros H Hl. exists (skipn (length a) c).
  assert (Hl2 : length (a ++ b) = length (c ++ d)) by now rewrite H.
  rewrite !app_length in Hl2.
  assert (Ha : a = firstn (length a) c).
  { apply (f_equal (firstn (length a))) in H. rewrite firstn_app, firstn_all, Nat.sub_diag in H.
    cbn in H. rewrite app_nil_r in H. rewrite firstn_app in H.
    replace (length a - length c)%nat with 0%nat in H by lia. cbn in H. now rewrite app_nil_r in H. }
  split.
  - rewrite Ha at 1. now rewrite firstn_skipn.
  - apply (app_inv_head a). rewrite H, app_assoc. f_equal. rewrite Ha at 1. now rewrite firstn_skipn.
Qed.

(** Padding with ones to a byte boundary. *)
Lemma emits_finalize P w pend :
  plat_ok P -> rep P w pend ->
  exists data pad, emits (finalize_bit_buffer P w) (stuff data) (bitw_new P) /\ bytes_ok data /\
    bits_of_bytes data = pend ++ pad /\ (length pad < 8)%nat /\ forallb (fun b => b) pad = true.
Proof.
  intros HP Hrep. unfold finalize_bit_buffer. pose proof (plat_bits P HP) as HU.
  destruct (emits_write_bits P w pend 0x7F 7 HP Hrep) as (w1 & d1 & p1 & He1 & Hok1 & Hrep1 & Hb1);
    [lia|lia|].
  destruct (emits_flush P (length p1 / 8) w1 p1 10 HP Hrep1) as (w2 & d2 & p2 & He2 & Hok2 & Hl2 & Hb2).
  { lia. }
  { destruct Hrep1 as (? & ? & _). assert (length p1 <= 64)%nat by lia.
    pose proof (Nat.div_le_mono (length p1) 64 8 ltac:(lia) H1). cbn in H2. lia. }
  change (bits_of 7 0x7F) with (repeat true 7) in Hb1.
  rewrite Hb2, app_assoc, <- bits_of_bytes_app in Hb1.
  apply app_split_suffix in Hb1 as (pad & Hpad & Hones); [|rewrite repeat_length; lia].
  exists (d1 ++ d2), pad. split; [|split; [|split; [|split]]].
  - rewrite stuff_app. eapply emits_bind; [exact He1|].
    rewrite <- (app_nil_r (stuff d2)). eapply emits_bind; [exact He2|]. apply emits_ret.
  - apply Forall_app. now split.
  - exact Hpad.
  - apply (f_equal (@length bool)) in Hones. rewrite repeat_length, app_length in Hones. lia.
  - apply forallb_forall. intros b Hb.
    assert (In b (repeat true 7)) as Hin by (rewrite Hones; apply in_or_app; now left).
    apply repeat_spec in Hin. now subst.
Qed.

(** ** The decoder removes the stuffing *)
Lemma entropy_bytes_stuff data m rest :
  m <> 0 -> entropy_bytes (stuff data ++ 255 :: m :: rest) = Some (data, 255 :: m :: rest).
Proof.
  intros Hm. induction data as [|b data IH].
  - cbn. destruct (m =? 0) eqn:E; [lia|]. reflexivity.
  - change (stuff (b :: data)) with ((if b =? 255 then [255; 0] else [b]) ++ stuff data).
    destruct (b =? 255) eqn:E.
    + apply Z.eqb_eq in E. subst. cbn [app entropy_bytes].
      change (255 =? 255) with true. change (0 =? 0) with true. cbn iota. rewrite IH. reflexivity.
    + cbn [app entropy_bytes]. rewrite E. rewrite IH. reflexivity.
Qed.
