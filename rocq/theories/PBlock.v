(** Writing blocks (src/writer.rs:271-350) and decoding them again. *)
From Verif Require Export PExec PBits PHuff MWriter.
From Verif Require Import T81.
From Coq Require Import ZifyBool ZifyNat.
Local Ltac Zify.zify_post_hook ::= Z.div_mod_to_equations.

(** [f] appends exactly [bits] to the bit string. *)
Definition appends (P : platform) (f : bitw -> prog bitw) (bits : list bool) : Prop :=
  forall w pend, rep P w pend ->
  exists w' data pend', emits (f w) (stuff data) w' /\ bytes_ok data /\ rep P w' pend' /\
                        pend ++ bits = bits_of_bytes data ++ pend'.

Lemma appends_ret P : appends P Ret [].
Proof.
  intros w pend H. exists w, [], pend. split; [apply emits_ret|].
  split; [constructor|]. split; [assumption|]. now rewrite app_nil_r.
Qed.

Lemma appends_bind P f g b1 b2 :
  appends P f b1 -> appends P g b2 -> appends P (fun w => bind (f w) g) (b1 ++ b2).
Proof.
  intros Hf Hg w pend Hrep.
  destruct (Hf w pend Hrep) as (w1 & d1 & p1 & He1 & Ho1 & Hr1 & Hb1).
  destruct (Hg w1 p1 Hr1) as (w2 & d2 & p2 & He2 & Ho2 & Hr2 & Hb2).
  exists w2, (d1 ++ d2), p2. split; [|split; [|split]].
  - rewrite stuff_app. eapply emits_bind; eassumption.
  - now apply Forall_app.
  - assumption.
  - rewrite bits_of_bytes_app, app_assoc, Hb1, <- !app_assoc. f_equal. exact Hb2.
Qed.

Lemma appends_ext P f g bits :
  (forall w, f w = g w) -> appends P g bits -> appends P f bits.
Proof.
  intros H Hg w pend Hrep. rewrite H. now apply Hg.
Qed.

Lemma appends_bits P v size :
  plat_ok P -> (size <= 31)%nat -> 0 <= v < 2 ^ Z.of_nat size ->
  appends P (fun w => write_bits P w v (Z.of_nat size)) (bits_of size v).
Proof. intros HP Hs Hv w pend Hrep. apply emits_write_bits; auto; lia. Qed.

(** [bits] is the code word of [sym]. *)
Definition code_of (t : htab) (tb : T81.table) (sym : Z) (bits : list bool) : Prop :=
  forall rest, decode_symbol tb (bits ++ rest) = Some (sym, rest).

Lemma appends_huffman_encode P t tb sym :
  plat_ok P -> codes t tb sym ->
  exists bits, appends P (fun w => huffman_encode P w sym t) bits /\ code_of t tb sym bits.
Proof.
  intros HP (Hsym & size & code & Hl & Hs & Hc & Hd). exists (bits_of size code). split; [|exact Hd].
  eapply appends_ext; [|apply (appends_bits P code size); auto; lia].
  intros w. unfold huffman_encode, get_for_value.
  rewrite (index_nth _ sym _ ltac:(lia) Hl). cbn [bind fst]. unfold debug_assert.
  replace (0 <? Z.of_nat size) with true by lia. reflexivity.
Qed.

Lemma appends_huffman_encode_value P t tb sym n v :
  plat_ok P -> codes t tb sym -> (n <= 11)%nat -> 0 <= v < 2 ^ Z.of_nat n ->
  exists bits, appends P (fun w => huffman_encode_value P w (Z.of_nat n) sym v t) (bits ++ bits_of n v) /\
               code_of t tb sym bits.
Proof.
  intros HP (Hsym & size & code & Hl & Hs & Hc & Hd) Hn Hv.
  exists (bits_of size code). split; [|exact Hd].
  assert (Hpow : 2 ^ Z.of_nat (size + n) <= 2 ^ 27) by (apply Z.pow_le_mono_r; lia).
  assert (Hprod : code * 2 ^ Z.of_nat n < 2 ^ Z.of_nat (size + n)).
  { rewrite Nat2Z.inj_add, Z.pow_add_r by lia. apply Z.mul_lt_mono_pos_r; [|lia].
    apply Z.pow_pos_nonneg; lia. }
  assert (0 <= code * 2 ^ Z.of_nat n) by (apply Z.mul_nonneg_nonneg; [lia|apply Z.pow_nonneg; lia]).
  set (tmp := Z.lor v (wrap_u 32 (code * 2 ^ Z.of_nat n))).
  assert (Htmp : 0 <= tmp < 2 ^ Z.of_nat (size + n)).
  { unfold tmp. apply lor_bound; [lia| |].
    - split; [lia|]. eapply Z.lt_le_trans; [apply Hv|]. apply Z.pow_le_mono_r; lia.
    - rewrite wrap_u_id by lia. lia. }
  replace (bits_of size code ++ bits_of n v) with (bits_of (size + n) tmp).
  2:{ unfold tmp. rewrite Z.lor_comm. unfold wrap_u. apply bits_of_lor; lia. }
  eapply appends_ext; [|apply (appends_bits P tmp (size + n)); auto; lia].
  intros w. unfold huffman_encode_value, get_for_value.
  rewrite (index_nth _ sym _ ltac:(lia) Hl). cbn [bind fst]. unfold debug_assert.
  replace (0 <? Z.of_nat size) with true by lia. cbn [orb bind].
  unfold shl_u. replace ((0 <=? Z.of_nat n) && (Z.of_nat n <? 32)) with true by lia. cbn [bind].
  fold tmp. rewrite ck_u_ret by lia. cbn [bind]. f_equal. lia.
Qed.

Lemma lor_shift_add a b n : 0 <= n -> 0 <= b < 2 ^ n -> Z.lor (a * 2 ^ n) b = a * 2 ^ n + b.
Proof.
  intros Hn Hb. rewrite <- Z.lxor_lor; [symmetry; apply Z.add_nocarry_lxor|];
    (apply Z.bits_inj'; intros i Hi; rewrite Z.land_spec, Z.bits_0;
     destruct (Z_lt_dec i n);
     [rewrite <- Z.shiftl_mul_pow2, Z.shiftl_spec_low by lia; reflexivity
     |rewrite (testbit_small b n i) by lia; apply andb_false_r]).
Qed.

(** ** get_code *)
(** Number of bits of the magnitude (the "category" of T.81 F.1.2.1). *)
Definition nbits (v : Z) : Z := if v =? 0 then 0 else Z.log2 (Z.abs v) + 1.

Lemma nbits_bound v n : 0 <= n -> Z.abs v < 2 ^ n -> 0 <= nbits v <= n.
Proof.
  intros Hn Hv. unfold nbits. destruct (v =? 0) eqn:E; [lia|].
  pose proof (Z.log2_nonneg (Z.abs v)). assert (Z.log2 (Z.abs v) < n); [|lia].
  apply Z.log2_lt_pow2; lia.
Qed.

Lemma nbits_spec v : v <> 0 -> 2 ^ (nbits v - 1) <= Z.abs v < 2 ^ nbits v.
Proof.
  intros Hv. unfold nbits. destruct (v =? 0) eqn:E; [lia|].
  replace (Z.log2 (Z.abs v) + 1 - 1) with (Z.log2 (Z.abs v)) by lia.
  apply Z.log2_spec. lia.
Qed.

Definition code_value (v : Z) : Z := if v <? 0 then 2 ^ nbits v + v - 1 else v.

Lemma code_value_bound v : 0 <= code_value v < 2 ^ nbits v.
Proof.
  unfold code_value. destruct (Z.eq_dec v 0) as [->|Hne]; [cbn; lia|].
  pose proof (nbits_spec v Hne).
  pose proof (Z.pow_pos_nonneg 2 (nbits v) ltac:(lia)).
  destruct (v <? 0) eqn:E; [|lia].
  assert (0 <= nbits v) by (unfold nbits; destruct (v =? 0); [lia|]; pose proof (Z.log2_nonneg (Z.abs v)); lia).
  lia.
Qed.

Lemma get_code_ret P v :
  Z.abs v < 2 ^ 14 -> get_code P v = Ret (nbits v, code_value v).
Proof.
  intros Hv. unfold get_code.
  rewrite ck_s_ret by (change (2 ^ (16 - 1)) with 32768; destruct (v <? 0); lia). cbn [bind].
  rewrite ck_s_ret by (change (2 ^ (16 - 1)) with 32768; lia). cbn [bind].
  cbv zeta.
  assert (Hu : Z.log2 (Z.lor (wrap_u 16 (Z.abs v * 2)) 1) = nbits v).
  { rewrite wrap_u_id by lia. rewrite Z.lor_comm.
    replace (Z.lor 1 (Z.abs v * 2)) with (2 * Z.abs v + 1).
    2:{ rewrite Z.lor_comm. change 2 with (2 ^ 1) at 2. rewrite lor_shift_add by lia. lia. }
    unfold nbits. destruct (v =? 0) eqn:E; [replace v with 0 by lia; reflexivity|].
    rewrite Z.log2_succ_double by lia. lia. }
  rewrite Hu. replace (15 - (15 - nbits v)) with (nbits v) by lia.
  pose proof (nbits_bound v 14 ltac:(lia) Hv) as Hn.
  assert (2 ^ nbits v <= 2 ^ 14) by (apply Z.pow_le_mono_r; lia).
  assert (0 < 2 ^ nbits v) by (apply Z.pow_pos_nonneg; lia).
  rewrite (wrap_s_id 16 (2 ^ nbits v)) by lia.
  rewrite ck_s_ret by lia. cbn [bind].
  assert (Hl : Z.land (v - (if v <? 0 then 1 else 0)) (2 ^ nbits v - 1) = code_value v).
  { replace (2 ^ nbits v - 1) with (Z.ones (nbits v)) by (rewrite Z.ones_equiv; lia).
    rewrite Z.land_ones by lia. unfold code_value.
    destruct (Z.eq_dec v 0) as [->|Hne]; [reflexivity|].
    pose proof (nbits_spec v Hne).
    destruct (v <? 0) eqn:E.
    - symmetry. apply (Z.mod_unique _ _ (-1)); lia.
    - rewrite Z.sub_0_r. apply Z.mod_small. lia. }
  rewrite Hl. pose proof (code_value_bound v). do 2 f_equal; apply wrap_u_id; lia.
Qed.

Lemma take_app {A} (l1 l2 : list A) : take (length l1) (l1 ++ l2) = Some (l1, l2).
Proof. induction l1 as [|x l1 IH]; cbn; [reflexivity|]. now rewrite IH. Qed.

Lemma receive_extend_code v rest :
  receive_extend (nbits v) (bits_of (Z.to_nat (nbits v)) (code_value v) ++ rest) = Some (v, rest).
Proof.
  pose proof (code_value_bound v) as Hc.
  assert (Hn : 0 <= nbits v).
  { unfold nbits. destruct (v =? 0); [lia|]. pose proof (Z.log2_nonneg (Z.abs v)). lia. }
  unfold receive_extend.
  rewrite <- (bits_of_length (Z.to_nat (nbits v)) (code_value v)) at 1. rewrite take_app.
  rewrite value_of_bits_small by (rewrite Z2Nat.id; lia). cbv zeta. f_equal. f_equal.
  destruct (Z.eq_dec v 0) as [->|Hne]; [reflexivity|].
  pose proof (nbits_spec v Hne) as Hs.
  assert (0 < nbits v).
  { destruct (Z.eq_dec (nbits v) 0) as [E|]; [|lia]. rewrite E in Hs. cbn in Hs. lia. }
  assert (2 ^ nbits v = 2 * 2 ^ (nbits v - 1)).
  { rewrite <- Z.pow_succ_r by lia. f_equal. lia. }
  unfold code_value in *. destruct (v <? 0) eqn:E.
  - replace ((0 <? nbits v) && (2 ^ nbits v + v - 1 <? 2 ^ (nbits v - 1))) with true by lia. lia.
  - replace ((0 <? nbits v) && (v <? 2 ^ (nbits v - 1))) with false by lia. reflexivity.
Qed.

(** ** DC *)
Lemma write_dc_ok P t tb value prev :
  plat_ok P -> Z.abs (value - prev) < 2 ^ 11 -> codes t tb (nbits (value - prev)) ->
  exists bits, appends P (fun w => write_dc P w value prev t) bits /\
    forall rest, decode_dc tb prev (bits ++ rest) = Some (value, rest).
Proof.
  intros HP Hd Hc. pose proof (nbits_bound _ 11 ltac:(lia) Hd) as Hn.
  destruct (appends_huffman_encode_value P t tb (nbits (value - prev))
              (Z.to_nat (nbits (value - prev))) (code_value (value - prev)))
    as (cb & Ha & Hcb); auto; try lia.
  { rewrite Z2Nat.id by lia. apply code_value_bound. }
  rewrite Z2Nat.id in Ha by lia.
  eexists. split.
  - eapply appends_ext; [|exact Ha]. intros w. unfold write_dc.
    rewrite ck_s_ret by (change (2 ^ (16 - 1)) with 32768; lia). cbn [bind].
    rewrite get_code_ret by lia. reflexivity.
  - intros rest. unfold decode_dc. rewrite <- app_assoc, Hcb.
    replace ((0 <=? nbits (value - prev)) && (nbits (value - prev) <=? 11)) with true by lia.
    rewrite receive_extend_code. do 2 f_equal. lia.
Qed.

(** ** AC *)
(** The symbols needed for the values [vals] after a run of [zr] zeros. *)
Fixpoint ac_syms (vals : list Z) (zr : Z) : list Z :=
  match vals with
  | [] => if 0 <? zr then [0] else []
  | v :: r => if v =? 0 then ac_syms r (zr + 1)
              else repeat 0xF0 (Z.to_nat (zr / 16)) ++ (16 * (zr mod 16) + nbits v) :: ac_syms r 0
  end.

Definition ac_tail (P : platform) (vals : list Z) (zr : Z) (t : htab) (w : bitw) : prog bitw :=
  let* '(w, zero_run) := write_ac_loop P w vals zr t in
  if 0 <? zero_run then huffman_encode P w 0x00 t else Ret w.


Lemma appends_exec P f g bits :
  (forall w, exec (f w) = exec (g w)) -> appends P g bits -> appends P f bits.
Proof.
  intros H Hg w pend Hrep. destruct (Hg w pend Hrep) as (w' & d & p & He & Hr).
  exists w', d, p. split; [|exact Hr]. unfold emits in *. now rewrite H.
Qed.


Lemma write_zrl_ok P t tb : forall fuel zr (k : bitw * Z -> prog bitw) kb,
  plat_ok P -> 0 <= zr < 16 * Z.of_nat fuel ->
  (zr / 16 = 0 \/ codes t tb 0xF0) ->
  (appends P (fun w => k (w, zr mod 16)) kb) ->
  exists zb, appends P (fun w => let* r := write_zrl P fuel w zr t in k r) (zb ++ kb) /\
    forall prog se fuelD n, (n + Z.to_nat (zr / 16) <= fuelD)%nat ->
      forall k0 X vals run rest, k0 + zr <= se ->
      (decode_ac prog tb (fuelD - Z.to_nat (zr / 16)) (k0 + 16 * (zr / 16)) se (kb ++ rest)
       = Some (vals, run, X)) ->
      decode_ac prog tb fuelD k0 se ((zb ++ kb) ++ rest)
      = Some (repeat 0 (Z.to_nat (16 * (zr / 16))) ++ vals, run, X).
Proof.
  induction fuel as [|fuel IH]; intros zr k kb HP Hzr Hc Hk; [lia|].
  cbn [write_zrl]. destruct (15 <? zr) eqn:E.
  - destruct Hc as [Hc|Hc]; [lia|].
    destruct (IH (zr - 16) k kb HP) as (zb & Ha & Hd); [lia|now right| |].
    { now replace ((zr - 16) mod 16) with (zr mod 16) by lia. }
    destruct (appends_huffman_encode P t tb 0xF0 HP Hc) as (fb & Hf & Hcode).
    exists (fb ++ zb). split.
    + rewrite <- app_assoc. eapply appends_exec; [|eapply appends_bind; [exact Hf|exact Ha]].
      intros w. apply bind_assoc.
    + intros prog se fuelD n Hn k0 X vals run rest Hk0 Hdec.
      destruct fuelD as [|fuelD]; [lia|]. cbn [decode_ac].
      replace (se <? k0) with false by lia.
      rewrite <- !app_assoc. rewrite Hcode. cbn [Z.leb Z.ltb].
      change ((0 <=? 240) && (240 <? 256)) with true. cbn iota.
      change (240 mod 16 =? 0) with true. change (240 / 16 =? 15) with true. cbn iota.
      replace (k0 + 16 <=? se) with true by lia. cbn iota. rewrite app_assoc.
      rewrite (Hd prog se fuelD n ltac:(lia) (k0 + 16) X vals run rest); [|lia|].
      * do 3 f_equal. rewrite app_assoc, <- repeat_app. f_equal. f_equal. lia.
      * replace (fuelD - Z.to_nat ((zr - 16) / 16))%nat with (S fuelD - Z.to_nat (zr / 16))%nat by lia.
        replace (k0 + 16 + 16 * ((zr - 16) / 16)) with (k0 + 16 * (zr / 16)) by lia. exact Hdec.
  - exists []. split.
    + cbn [app bind]. eapply appends_ext; [|exact Hk]. intros w. now replace (zr mod 16) with zr by lia.
    + intros prog se fuelD n Hn k0 X vals run rest Hk0 Hdec. 
      replace (zr / 16) with 0 in * by lia. cbn [app repeat Z.to_nat Z.mul].
      rewrite Nat.sub_0_r in Hdec. replace (k0 + 16 * 0) with k0 in Hdec by lia. exact Hdec.
Qed.

Lemma ac_tail_ok P t tb prog se : forall vals zr,
  plat_ok P -> 0 <= zr -> zr + zlen vals <= 63 ->
  Forall (fun v => Z.abs v < 2 ^ 10) vals ->
  Forall (codes t tb) (ac_syms vals zr) ->
  exists bits, appends P (ac_tail P vals zr t) bits /\
    forall k fuel rest, k + zr + zlen vals = se + 1 -> (Z.to_nat (zr + zlen vals) < fuel)%nat ->
      decode_ac prog tb fuel k se (bits ++ rest) = Some (repeat 0 (Z.to_nat zr) ++ vals, 0, rest).
Proof.
  induction vals as [|v vals IH]; intros zr HP Hzr Hlen Hb Hc; unfold ac_tail; cbn [write_ac_loop ac_syms] in *.
  - cbn [bind]. destruct (0 <? zr) eqn:E.
    + inversion Hc as [|? ? Hc0 _]; subst.
      destruct (appends_huffman_encode P t tb 0 HP Hc0) as (bits & Ha & Hcode).
      exists bits. split; [exact Ha|]. intros k fuel rest Hk Hf.
      destruct fuel as [|fuel]; [lia|]. cbn [decode_ac].
      unfold zlen in *; cbn [length] in *.
      replace (se <? k) with false by lia. rewrite Hcode.
      change ((0 <=? 0) && (0 <? 256)) with true. cbn iota.
      change (0 mod 16 =? 0) with true. change (0 / 16 =? 15) with false. change (0 / 16 =? 0) with true.
      cbn iota. rewrite app_nil_r. do 4 f_equal. lia.
    + exists []. split; [apply appends_ret|]. intros k fuel rest Hk Hf.
      destruct fuel as [|fuel]; [lia|]. cbn [decode_ac]. unfold zlen in *; cbn [length] in *.
      replace (se <? k) with true by lia. now replace zr with 0 by lia.
  - assert (Hz1 : zlen (v :: vals) = zlen vals + 1) by (unfold zlen; cbn [length]; lia).
    pose proof (zlen_nonneg vals) as Hz0.
    inversion Hb as [|? ? Hv Hb']; subst.
    destruct (v =? 0) eqn:Ev.
    + apply Z.eqb_eq in Ev. subst v.
      destruct (IH (zr + 1) HP) as (bits & Ha & Hd); try assumption; try lia.
      exists bits. split.
      * eapply appends_ext; [|exact Ha]. intros w. rewrite ck_u_ret by (change (2^8) with 256; lia). reflexivity.
      * intros k fuel rest Hk Hf. rewrite (Hd k fuel rest) by lia. do 3 f_equal.
        replace (Z.to_nat (zr + 1)) with (Z.to_nat zr + 1)%nat by lia.
        rewrite repeat_app, <- app_assoc. reflexivity.
    + apply Forall_app in Hc as [Hc1 Hc2]. inversion Hc2 as [|? ? Hcs Hc']; subst.
      destruct (IH 0 HP) as (bits & Ha & Hd); try assumption; try lia.
      pose proof (nbits_bound v 10 ltac:(lia) Hv) as Hn.
      assert (Hn1 : 0 < nbits v).
      { unfold nbits. rewrite Ev. pose proof (Z.log2_nonneg (Z.abs v)). lia. }
      destruct (appends_huffman_encode_value P t tb (16 * (zr mod 16) + nbits v)
                  (Z.to_nat (nbits v)) (code_value v)) as (cb & Hav & Hcode); auto; try lia.
      { rewrite Z2Nat.id by lia. apply code_value_bound. }
      rewrite Z2Nat.id in Hav by lia.
      destruct (write_zrl_ok P t tb 17 zr
         (fun '(w, zero_run) =>
            let* '(w, zero_run) :=
              (let* '(size, value) := get_code P v in
               let symbol := Z.lor (wrap_u 8 (zero_run * 2 ^ 4)) size in
               let* w := huffman_encode_value P w size symbol value t in
               write_ac_loop P w vals 0 t) in
            if 0 <? zero_run then huffman_encode P w 0x00 t else Ret w)
         ((cb ++ bits_of (Z.to_nat (nbits v)) (code_value v)) ++ bits)) as (zb & Hzb & Hzd);
        try assumption; try lia.
      { destruct (Z.eq_dec (zr / 16) 0); [now left|right].
        rewrite Forall_forall in Hc1. apply Hc1.
        destruct (Z.to_nat (zr / 16)) as [|m] eqn:Em; [lia|]. now left. }
      { eapply appends_exec; [|eapply appends_bind; [exact Hav|exact Ha]].
        intros w. rewrite get_code_ret by lia. cbn [bind]. cbv zeta.
        rewrite wrap_u_id by (change (2^8) with 256; change (2^4) with 16; lia).
        rewrite lor_shift_add by (change (2^4) with 16; lia).
        replace (zr mod 16 * 2 ^ 4 + nbits v) with (16 * (zr mod 16) + nbits v) by (change (2^4) with 16; lia).
        apply bind_assoc. }
      eexists. split.
      * eapply appends_exec; [|exact Hzb]. intros w.
        rewrite bind_assoc. apply exec_bind_ext. now intros [w1 z1].
      * intros k fuel rest Hk Hf.
        rewrite (Hzd prog se fuel (fuel - Z.to_nat (zr / 16))%nat ltac:(lia) k rest
                   (repeat 0 (Z.to_nat (zr mod 16)) ++ v :: vals) 0 rest).
        -- do 3 f_equal. rewrite app_assoc, <- repeat_app. do 2 f_equal. lia.
        -- lia.
        -- destruct (fuel - Z.to_nat (zr / 16))%nat as [|fuel'] eqn:Ef; [lia|].
           cbn [decode_ac]. replace (se <? _) with false by lia.
           rewrite <- !app_assoc, Hcode.
           replace ((0 <=? 16 * (zr mod 16) + nbits v) && (16 * (zr mod 16) + nbits v <? 256)) with true by lia.
           replace ((16 * (zr mod 16) + nbits v) mod 16) with (nbits v) by lia.
           replace ((16 * (zr mod 16) + nbits v) / 16) with (zr mod 16) by lia.
           replace (nbits v =? 0) with false by lia. cbn iota.
           replace ((nbits v <=? 10) && (k + 16 * (zr / 16) + zr mod 16 <=? se)) with true by lia.
           cbn iota. rewrite receive_extend_code.
           rewrite (Hd (k + 16 * (zr / 16) + zr mod 16 + 1) fuel' rest); [reflexivity|lia|lia].
Qed.

(** Coefficients start .. end-1 of a block (a band, or 1 .. 63) *)
Lemma write_ac_block_ok P t tb prog block start end_ :
  plat_ok P -> length block = 64%nat -> 1 <= start -> start <= end_ <= 64 ->
  Forall (fun v => Z.abs v < 2 ^ 10) (slice block start end_) ->
  Forall (codes t tb) (ac_syms (slice block start end_) 0) ->
  exists bits, appends P (fun w => write_ac_block P w block start end_ t) bits /\
    forall rest, decode_ac prog tb 64 start (end_ - 1) (bits ++ rest)
                 = Some (slice block start end_, 0, rest).
Proof.
  intros HP Hlen Hs He Hb Hc.
  assert (Hsl : zlen (slice block start end_) = end_ - start).
  { unfold zlen, slice. rewrite firstn_length, skipn_length, Hlen. lia. }
  destruct (ac_tail_ok P t tb prog (end_ - 1) (slice block start end_) 0) as (bits & Ha & Hd);
    auto; try lia.
  exists bits. split.
  - eapply appends_ext; [|exact Ha]. intros w. unfold write_ac_block.
    replace ((start <=? end_) && (end_ <=? 64)) with true by lia. reflexivity.
  - intros rest. rewrite (Hd start 64%nat rest); [reflexivity|lia|lia].
Qed.
