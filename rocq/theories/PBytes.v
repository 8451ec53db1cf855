(** The exact bytes: every scan loop of the encoder writes what the reference encoder of SEncode.v
    specifies. *)
From Verif Require Export PScans.
From Verif Require Import T81 SFile SEncode PSegments.
From Coq Require Import ZifyBool ZifyNat.
Local Ltac Zify.zify_post_hook ::= Z.div_mod_to_equations.

(** ** Code words are determined by the table *)
Lemma decode_symbol_in tb bits sym rest : decode_symbol tb bits = Some (sym, rest) ->
  exists c, In (c, sym) tb /\ bits = c ++ rest.
Proof.
  induction tb as [|[c s] tb IH]; cbn [decode_symbol]; [discriminate|].
  destruct (strip c bits) as [r|] eqn:E.
  - intros [= <- <-]. exists c. split; [now left|]. now apply strip_some.
  - intros H. destruct (IH H) as (c' & Hin & ->). exists c'. split; [now right|reflexivity].
Qed.

Lemma find_unique (tb : table) c sym : NoDup (map snd tb) -> In (c, sym) tb -> SEncode.code tb sym = c.
Proof.
  unfold SEncode.code. induction tb as [|[c' s'] tb IH]; intros Hn Hin; [destruct Hin|].
  cbn [map snd] in Hn. inversion Hn as [|? ? Hni Hn']; subst. cbn [find snd].
  destruct (s' =? sym) eqn:E.
  - assert (s' = sym) as -> by lia. destruct Hin as [[= <-]|Hin]; [reflexivity|].
    exfalso. apply Hni. change sym with (snd (c, sym)). now apply in_map.
  - destruct Hin as [[= _ ->]|Hin]; [lia|]. now apply IH.
Qed.

Definition uniq_syms (tb : table) : Prop := NoDup (map snd tb).

Lemma code_of_code t tb sym bits : uniq_syms tb -> code_of t tb sym bits -> bits = SEncode.code tb sym.
Proof.
  intros Hn Hc. specialize (Hc []). rewrite app_nil_r in Hc.
  apply decode_symbol_in in Hc as (c & Hin & ->). rewrite app_nil_r. symmetry. now apply find_unique.
Qed.

Lemma combine_snd_len {A B} (l : list A) : forall (l' : list B), length l = length l' -> map snd (combine l l') = l'.
Proof. induction l as [|a l IH]; intros [|b l']; cbn; intros H; try lia; [reflexivity|]. f_equal. apply IH. lia. Qed.

Lemma valid_tab_uniq t tb : valid_tab t tb -> uniq_syms tb.
Proof.
  intros V. destruct (build_table_inv _ _ _ (vt_build _ _ V)) as (_ & Hn & _ & Hl & ->).
  unfold uniq_syms. rewrite combine_snd_len by now rewrite map_length. exact Hn.
Qed.

Lemma nbits_category v : nbits v = category v. Proof. reflexivity. Qed.
Lemma extra_eq v : bits_of (Z.to_nat (nbits v)) (code_value v) = extra v.
Proof.
  unfold extra. change (category v) with (nbits v). unfold code_value. destruct (v <? 0) eqn:E; [|reflexivity].
  pose proof (nbits_spec v ltac:(lia)) as Hs.
  assert (Hn : 0 <= nbits v).
  { unfold nbits. destruct (v =? 0); [lia|]. pose proof (Z.log2_nonneg (Z.abs v)). lia. }
  rewrite <- (bits_of_mod (Z.to_nat (nbits v)) (Z.to_nat (nbits v)) (v - 1)) by lia.
  rewrite Z2Nat.id by lia. f_equal. apply (Z.mod_unique _ _ (-1)); lia.
Qed.

(** ** Blocks *)
Section Blocks.
  Variable P : platform.
  Variable HP : plat_ok P.

  Lemma huffman_encode_bits t tb sym : uniq_syms tb -> codes t tb sym ->
    appends P (fun w => huffman_encode P w sym t) (SEncode.code tb sym).
  Proof.
    intros Hn Hc. destruct (appends_huffman_encode P t tb sym HP Hc) as (b & Ha & Hb).
    now rewrite <- (code_of_code t tb sym b Hn Hb).
  Qed.

  (** A symbol without a code word: a build without debug assertions writes no bits for it. *)
  Definition missing (t : htab) (tb : table) (sym : Z) : Prop :=
    0 <= sym < 256 /\ nth_error (h_lookup t) (Z.to_nat sym) = Some (0, 0) /\ SEncode.code tb sym = [].
  Definition writes (t : htab) (tb : table) (sym : Z) : Prop :=
    codes t tb sym \/ (dbg P = false /\ missing t tb sym).

  Lemma missing_value_bits t tb sym n v : dbg P = false -> missing t tb sym -> (n <= 11)%nat -> 0 <= v < 2 ^ Z.of_nat n ->
    appends P (fun w => huffman_encode_value P w (Z.of_nat n) sym v t) (SEncode.code tb sym ++ bits_of n v).
  Proof.
    intros Hd (Hsym & Hl & Ec) Hn Hv. rewrite Ec. cbn [app].
    eapply appends_ext; [|apply (appends_bits P v n); auto; lia].
    intros w. unfold huffman_encode_value, get_for_value.
    rewrite (index_nth _ sym _ ltac:(lia) Hl). cbn [bind fst]. unfold debug_assert. rewrite Hd.
    change (0 <? 0) with false. cbn [orb negb bind].
    unfold shl_u. replace ((0 <=? Z.of_nat n) && (Z.of_nat n <? 32)) with true by lia. cbn [bind].
    rewrite Z.mul_0_l. change (wrap_u 32 0) with 0. rewrite Z.lor_0_r.
    rewrite ck_u_ret by lia. cbn [bind]. f_equal. lia.
  Qed.

  Lemma value_bits t tb sym n v : uniq_syms tb -> writes t tb sym -> (n <= 11)%nat -> 0 <= v < 2 ^ Z.of_nat n ->
    appends P (fun w => huffman_encode_value P w (Z.of_nat n) sym v t) (SEncode.code tb sym ++ bits_of n v).
  Proof.
    intros Hnd [Hc|[Hd Hm]] Hn Hv; [|now apply missing_value_bits].
    destruct (appends_huffman_encode_value P t tb sym n v HP Hc Hn Hv) as (cb & Ha & Hcb).
    now rewrite <- (code_of_code t tb _ _ Hnd Hcb).
  Qed.

  Lemma write_dc_bits t tb value prev : uniq_syms tb ->
    Z.abs (value - prev) < 2 ^ 11 -> writes t tb (nbits (value - prev)) ->
    appends P (fun w => write_dc P w value prev t) (encode_dc tb prev value).
  Proof.
    intros Hnd Hd Hc. pose proof (nbits_bound _ 11 ltac:(lia) Hd) as Hn.
    pose proof (value_bits t tb (nbits (value - prev)) (Z.to_nat (nbits (value - prev))) (code_value (value - prev)) Hnd Hc ltac:(lia)) as Ha.
    rewrite Z2Nat.id in Ha by lia. specialize (Ha (code_value_bound _)). rewrite extra_eq in Ha.
    eapply appends_ext; [|exact Ha]. intros w. unfold write_dc.
    rewrite ck_s_ret by (change (2 ^ (16 - 1)) with 32768; lia). cbn [bind].
    rewrite get_code_ret by lia. reflexivity.
  Qed.

  Lemma write_zrl_bits t tb : uniq_syms tb -> forall fuel zr (k : bitw * Z -> prog bitw) kb,
    0 <= zr < 16 * Z.of_nat fuel -> (zr / 16 = 0 \/ codes t tb 0xF0) ->
    appends P (fun w => k (w, zr mod 16)) kb ->
    appends P (fun w => let* r := write_zrl P fuel w zr t in k r)
              (concat (repeat (SEncode.code tb 0xF0) (Z.to_nat (zr / 16))) ++ kb).
  Proof.
    intros Hnd. induction fuel as [|fuel IH]; intros zr k kb Hzr Hc Hk; [lia|].
    cbn [write_zrl]. destruct (15 <? zr) eqn:E.
    - destruct Hc as [Hc|Hc]; [lia|].
      assert (Ha := IH (zr - 16) k kb ltac:(lia) (or_intror Hc)).
      replace ((zr - 16) mod 16) with (zr mod 16) in Ha by lia. specialize (Ha Hk).
      replace (Z.to_nat (zr / 16)) with (S (Z.to_nat ((zr - 16) / 16))) by lia.
      cbn [repeat concat]. rewrite <- app_assoc.
      eapply appends_exec; [|eapply appends_bind; [apply huffman_encode_bits; eassumption|exact Ha]].
      intros w. apply bind_assoc.
    - replace (zr / 16) with 0 by lia. cbn [Z.to_nat repeat concat app bind].
      eapply appends_ext; [|exact Hk]. intros w. now replace (zr mod 16) with zr by lia.
  Qed.

  Lemma ac_tail_bits t tb : uniq_syms tb -> forall vals zr,
    0 <= zr -> zr + zlen vals <= 63 ->
    Forall (fun v => Z.abs v < 2 ^ 10) vals -> Forall (codes t tb) (ac_syms vals zr) ->
    appends P (ac_tail P vals zr t) (encode_ac tb zr vals).
  Proof.
    intros Hnd. induction vals as [|v vals IH]; intros zr Hzr Hlen Hb Hc; unfold ac_tail; cbn [write_ac_loop ac_syms encode_ac] in *.
    - cbn [bind]. destruct (0 <? zr) eqn:E; [|apply appends_ret].
      inversion Hc as [|? ? Hc0 _]; subst. now apply huffman_encode_bits.
    - assert (Hz1 : zlen (v :: vals) = zlen vals + 1) by (unfold zlen; cbn [length]; lia).
      pose proof (zlen_nonneg vals) as Hz0.
      inversion Hb as [|? ? Hv Hb']; subst.
      destruct (v =? 0) eqn:Ev.
      + eapply appends_ext; [|apply (IH (zr + 1)); try assumption; lia].
        intros w. rewrite ck_u_ret by (change (2^8) with 256; lia). reflexivity.
      + apply Forall_app in Hc as [Hc1 Hc2]. inversion Hc2 as [|? ? Hcs Hc']; subst.
        assert (Ha := IH 0 ltac:(lia) ltac:(lia) Hb' Hc').
        pose proof (nbits_bound v 10 ltac:(lia) Hv) as Hn.
        assert (Hn1 : 0 < nbits v).
        { unfold nbits. rewrite Ev. pose proof (Z.log2_nonneg (Z.abs v)). lia. }
        destruct (appends_huffman_encode_value P t tb (16 * (zr mod 16) + nbits v)
                    (Z.to_nat (nbits v)) (code_value v)) as (cb & Hav & Hcode); auto; try lia.
        { rewrite Z2Nat.id by lia. apply code_value_bound. }
        rewrite Z2Nat.id in Hav by lia. rewrite extra_eq, (code_of_code t tb _ _ Hnd Hcode) in Hav.
        change (category v) with (nbits v).
        eapply appends_exec; [|apply (write_zrl_bits t tb Hnd 17 zr
           (fun '(w, zero_run) =>
              let* '(w, zero_run) :=
                (let* '(size, value) := get_code P v in
                 let symbol := Z.lor (wrap_u 8 (zero_run * 2 ^ 4)) size in
                 let* w := huffman_encode_value P w size symbol value t in
                 write_ac_loop P w vals 0 t) in
              if 0 <? zero_run then huffman_encode P w 0x00 t else Ret w))].
        * intros w. rewrite bind_assoc. apply exec_bind_ext. now intros [w1 z1].
        * lia.
        * destruct (Z.eq_dec (zr / 16) 0); [now left|right].
          rewrite Forall_forall in Hc1. apply Hc1.
          destruct (Z.to_nat (zr / 16)) as [|m] eqn:Em; [lia|]. now left.
        * rewrite app_assoc. eapply appends_exec; [|eapply appends_bind; [exact Hav|exact Ha]].
          intros w. rewrite get_code_ret by lia. cbn [bind]. cbv zeta.
          rewrite wrap_u_id by (change (2^8) with 256; change (2^4) with 16; lia).
          rewrite lor_shift_add by (change (2^4) with 16; lia).
          replace (zr mod 16 * 2 ^ 4 + nbits v) with (16 * (zr mod 16) + nbits v) by (change (2^4) with 16; lia).
          apply bind_assoc.
  Qed.

  Lemma write_ac_block_bits t tb block start end_ : uniq_syms tb ->
    length block = 64%nat -> 1 <= start -> start <= end_ <= 64 ->
    Forall (fun v => Z.abs v < 2 ^ 10) (slice block start end_) ->
    Forall (codes t tb) (ac_syms (slice block start end_) 0) ->
    appends P (fun w => write_ac_block P w block start end_ t) (encode_ac tb 0 (slice block start end_)).
  Proof.
    intros Hnd Hlen Hs He Hb Hc.
    assert (Hsl : zlen (slice block start end_) = end_ - start).
    { unfold zlen, slice. rewrite firstn_length, skipn_length, Hlen. lia. }
    eapply appends_ext; [|apply ac_tail_bits; try eassumption; lia].
    intros w. unfold write_ac_block. replace ((start <=? end_) && (end_ <=? 64)) with true by lia. reflexivity.
  Qed.

  Lemma write_block_bits tdc tac bdc bac b prev : uniq_syms bdc -> uniq_syms bac ->
    block_ok b -> -1024 <= prev <= 1023 -> writes tdc bdc (nbits (zn b 0 - prev)) ->
    Forall (codes tac bac) (ac_syms (slice b 1 64) 0) ->
    appends P (fun w => write_block P w b prev tdc tac)
              (encode_dc bdc prev (zn b 0) ++ encode_ac bac 0 (slice b 1 64)).
  Proof.
    intros N1 N2 Hb Hp Hdc Hac. unfold write_block. apply appends_bind.
    - apply write_dc_bits; auto. now apply block_ok_dcdiff.
    - apply write_ac_block_bits; auto; try lia; [apply Hb|]. apply block_ok_slice; auto; lia.
  Qed.
End Blocks.

(** ** Bytes from bits *)
Lemma group_app_full {A} n (l r : list A) : (0 < n)%nat -> length l = n ->
  group (length (l ++ r)) n (l ++ r) = l :: group (length r) n r.
Proof. apply group_full. Qed.

Lemma bits_of_bytes_length d : length (bits_of_bytes d) = (8 * length d)%nat.
Proof.
  induction d as [|b d IH]; [reflexivity|]. unfold bits_of_bytes in *. cbn [flat_map length].
  rewrite app_length, bits_of_length, IH. lia.
Qed.

Lemma bytes_of_bits d : bytes_ok d ->
  map value_of (group (length (bits_of_bytes d)) 8 (bits_of_bytes d)) = d.
Proof.
  intros Hd. induction Hd as [|b d Hb Hd IH]; [reflexivity|].
  change (bits_of_bytes (b :: d)) with (bits_of 8 b ++ bits_of_bytes d).
  rewrite group_full by (try lia; apply bits_of_length). cbn [map]. rewrite IH. f_equal.
  apply value_of_bits_small. exact Hb.
Qed.

Lemma pack_unique d bits pad : bytes_ok d -> bits_of_bytes d = bits ++ pad -> (length pad < 8)%nat ->
  forallb (fun b => b) pad = true -> d = pack bits.
Proof.
  intros Hd Hb Hl Hp. unfold pack.
  assert (E : fill bits = bits_of_bytes d).
  { rewrite Hb. unfold fill. f_equal.
    assert (Hlen := f_equal (@length bool) Hb). rewrite bits_of_bytes_length, app_length in Hlen.
    replace (Z.to_nat (- Z.of_nat (length bits) mod 8)) with (length pad) by lia.
    clear - Hp. induction pad as [|b pad IH]; [reflexivity|]. cbn in *. apply andb_prop in Hp as [-> Hp].
    f_equal. now apply IH. }
  rewrite E. symmetry. now apply bytes_of_bits.
Qed.

(** ** The generic loop *)
Lemma restart_after_val P ri restarts to_go : 0 <= ri < 2 ^ 16 ->
  0 <= to_go <= ri -> 0 < ri ->
  restart_after P ri restarts to_go =
  Ret (if to_go =? 0 then (Z.land (restarts + 1) 7, ri - 1) else (restarts, to_go - 1)).
Proof.
  intros Hri H Hp. unfold restart_after. replace (0 <? ri) with true by lia.
  destruct (to_go =? 0) eqn:E; rewrite ck_u_ret by lia; reflexivity.
Qed.

Section Loop.
  Variable P : platform.
  Variable HP : plat_ok P.
  Variables (S U : Type).
  Variable ri : Z.
  Variable Hri : 0 <= ri < 2 ^ 16.
  Variable s0 : S.
  Variable step : S -> U -> bitw -> prog (bitw * S).
  Variable next : S -> U -> S.
  Variable good : S -> U -> Prop.
  Variable ubits_ : S -> U -> list bool.
  Variable step_ok : forall s u, good s u -> appendsS P (step s u) (ubits_ s u) (next s u).

  Fixpoint enc (s : S) (us : list U) : list bool :=
    match us with [] => [] | u :: r => ubits_ s u ++ enc (next s u) r end.
  Definition after (s : S) (us : list U) : S := fold_left next us s.
  Lemma enc_snoc us u : forall s, enc s (us ++ [u]) = enc s us ++ ubits_ (after s us) u.
  Proof.
    induction us as [|v us IH]; intros s; cbn [enc app after fold_left].
    - now rewrite app_nil_r.
    - rewrite IH, <- app_assoc. reflexivity.
  Qed.
  Lemma after_snoc us u s : after s (us ++ [u]) = next (after s us) u.
  Proof. unfold after. now rewrite fold_left_app. Qed.

  Definition data_of (us : list U) : list Z := pack (enc s0 us).

  Definition inb (dn : list U) (w : bitw) (s : S) (d : list Z) : Prop :=
    exists pend, rep P w pend /\ bytes_ok d /\ s = after s0 dn /\ enc s0 dn = bits_of_bytes d ++ pend.

  Lemma inb_start : inb [] (bitw_new P) s0 [].
  Proof. exists []. split; [now apply rep_new|]. split; [constructor|]. split; reflexivity. Qed.

  Lemma inb_step dn w s d u : inb dn w s d -> good s u ->
    exists w' d', emits (step s u w) (stuff d') (w', next s u) /\ inb (dn ++ [u]) w' (next s u) (d ++ d').
  Proof.
    intros (pend & Hrep & Hok & Hs & He) Hg.
    destruct (step_ok s u Hg w pend Hrep) as (w' & d' & pend' & Hem & Hok' & Hrep' & Hb).
    exists w', d'. split; [exact Hem|]. exists pend'. split; [exact Hrep'|].
    split; [now apply Forall_app|]. split; [now rewrite after_snoc, Hs|].
    rewrite enc_snoc, He, <- Hs, bits_of_bytes_app, <- !app_assoc. f_equal. exact Hb.
  Qed.

  Lemma inb_finish dn w s d : inb dn w s d ->
    exists o, emits (finalize_bit_buffer P w) o (bitw_new P) /\ stuff d ++ o = stuffed (data_of dn).
  Proof.
    intros (pend & Hrep & Hok & Hs & He).
    destruct (emits_finalize P w pend HP Hrep) as (data & pad & Hem & Hokd & Hb & Hlen & Hones).
    exists (stuff data). split; [exact Hem|]. rewrite <- stuff_app.
    assert (E : d ++ data = data_of dn); [|now rewrite E].
    apply (pack_unique _ _ pad); auto; [now apply Forall_app|].
    rewrite bits_of_bytes_app, Hb, He, app_assoc. reflexivity.
  Qed.

  Notation path := (path S U ri s0 next good).
  Notation loop := (loop P S U ri s0 step).
  Notation loop_body := (loop_body P S U ri s0 step).

  Lemma loop_restart_bits : 0 < ri -> forall us dn w s d m,
    dn ++ us <> [] -> (length dn <= Z.to_nat ri)%nat -> 0 <= m ->
    inb dn w s d -> path (ri - Z.of_nat (length dn)) s us ->
    exists o, emits (loop us (w, s, m mod 8, ri - Z.of_nat (length dn))) o (bitw_new P) /\
      stuff d ++ o = coded_data m (map data_of (group (length (dn ++ us)) (Z.to_nat ri) (dn ++ us))).
  Proof.
    intros Hp. induction us as [|u us IH]; intros dn w s d m Hne Hl Hm Hin Hg.
    - destruct (inb_finish dn w s d Hin) as (o & He & Ho).
      exists o. split.
      + unfold PScan.loop. cbn [foldM bind]. exact He.
      + rewrite app_nil_r in *. rewrite group_last by (assumption || lia). exact Ho.
    - cbn [PScan.path] in Hg. replace (0 <? ri) with true in Hg by lia. cbn [andb] in Hg.
      destruct (Nat.eq_dec (length dn) (Z.to_nat ri)) as [Hfull|Hnf].
      + assert (Hz : ri - Z.of_nat (length dn) = 0) by lia. rewrite Hz in *. cbn [Z.eqb] in Hg.
        destruct Hg as [Hgu Hgr].
        destruct (inb_finish dn w s d Hin) as (o1 & He1 & Ho1).
        destruct (inb_step [] (bitw_new P) s0 [] u inb_start Hgu) as (w2 & d2 & He2 & Hin2).
        cbn [app] in Hin2.
        destruct (IH [u] w2 (next s0 u) d2 (m + 1)) as (o3 & He3 & Ho3); try assumption; try lia.
        { easy. }
        { cbn [length]. lia. }
        exists ((o1 ++ [255; 208 + m mod 8] ++ stuff d2) ++ o3). split.
        * eapply loop_cons; [|exact He3].
          unfold PScan.loop_body. replace (0 <? ri) with true by lia. cbn [andb Z.eqb].
          rewrite app_assoc. eapply emits_bind.
          -- eapply emits_bind; [exact He1|].
             rewrite <- (app_nil_r [255; _]). eapply emits_bind; [|apply emits_ret].
             unfold write_marker, write, marker_byte.
             rewrite Z.mod_mod by lia. change 0xFF with 255. change 0xD0 with 208. apply emits_write_all.
          -- cbv beta iota. rewrite <- (app_nil_r (stuff d2)). eapply emits_bind; [exact He2|].
             cbv beta iota. rewrite restart_after_val by lia. cbn [bind Z.eqb].
             replace (Z.land (m mod 8 + 1) 7) with ((m + 1) mod 8); [apply emits_ret|].
             change 7 with (Z.ones 3). rewrite Z.land_ones by lia. change (2 ^ 3) with 8.
             rewrite Zplus_mod_idemp_l. reflexivity.
        * rewrite group_full by (assumption || lia). cbn [app] in Ho3.
          assert (G : exists g gs, group (length (u :: us)) (Z.to_nat ri) (u :: us) = g :: gs)
            by (cbn [length group]; eauto).
          destruct G as (g & gs & G). rewrite G in *. cbn [map] in *.
          change (coded_data m (data_of dn :: data_of g :: map data_of gs))
            with (stuffed (data_of dn) ++ [255; 208 + m mod 8] ++ coded_data (m + 1) (data_of g :: map data_of gs)).
          rewrite <- Ho3, <- Ho1, <- !app_assoc. reflexivity.
      + assert (Hz : ri - Z.of_nat (length dn) =? 0 = false) by lia. rewrite Hz in Hg.
        destruct Hg as [Hgu Hgr].
        destruct (inb_step dn w s d u Hin Hgu) as (w2 & d2 & He2 & Hin2).
        destruct (IH (dn ++ [u]) w2 (next s u) (d ++ d2) m) as (o3 & He3 & Ho3).
        { rewrite <- app_assoc. exact Hne. }
        { rewrite app_length. cbn [length]. lia. }
        { lia. }
        { exact Hin2. }
        { rewrite app_length. cbn [length].
          replace (ri - Z.of_nat (length dn + 1)) with (ri - Z.of_nat (length dn) - 1) by lia. exact Hgr. }
        exists (stuff d2 ++ o3). split.
        * eapply loop_cons; [|exact He3].
          unfold PScan.loop_body. rewrite Hz, andb_false_r. cbn [bind].
          rewrite <- (app_nil_r (stuff d2)). eapply emits_bind; [exact He2|].
          cbv beta iota. rewrite restart_after_val by lia. rewrite Hz. cbn [bind].
          rewrite app_length. cbn [length].
          replace (ri - Z.of_nat (length dn + 1)) with (ri - Z.of_nat (length dn) - 1) by lia.
          apply emits_ret.
        * rewrite <- !app_assoc in Ho3. cbn [app] in Ho3. rewrite stuff_app, <- app_assoc in Ho3. exact Ho3.
  Qed.

  Lemma loop_plain_bits : ri = 0 -> forall us dn w s d,
    inb dn w s d -> path (0 - Z.of_nat (length dn)) s us ->
    exists o, emits (loop us (w, s, 0, 0)) o (bitw_new P) /\ stuff d ++ o = stuffed (data_of (dn ++ us)).
  Proof.
    intros Hz. induction us as [|u us IH]; intros dn w s d Hin Hg.
    - destruct (inb_finish dn w s d Hin) as (o & He & Ho).
      exists o. split; [exact He|]. rewrite app_nil_r. exact Ho.
    - cbn [PScan.path] in Hg. rewrite Hz in Hg. cbn [Z.ltb Z.compare andb] in Hg.
      destruct Hg as [Hgu Hgr].
      destruct (inb_step dn w s d u Hin Hgu) as (w2 & d2 & He2 & Hin2).
      destruct (IH (dn ++ [u]) w2 (next s u) (d ++ d2)) as (o3 & He3 & Ho3).
      { exact Hin2. }
      { rewrite app_length. cbn [length].
        replace (0 - Z.of_nat (length dn + 1)) with (if 0 - Z.of_nat (length dn) =? 0 then 0 - 1
           else 0 - Z.of_nat (length dn) - 1); [rewrite Hz; exact Hgr|].
        destruct (0 - Z.of_nat (length dn) =? 0) eqn:E; lia. }
      exists (stuff d2 ++ o3). split.
      + eapply loop_cons; [|exact He3].
        unfold PScan.loop_body. rewrite Hz. cbn [Z.ltb Z.compare andb bind].
        rewrite <- (app_nil_r (stuff d2)). eapply emits_bind; [exact He2|].
        cbv beta iota. unfold restart_after. cbn [Z.ltb Z.compare bind]. apply emits_ret.
      + rewrite <- !app_assoc in Ho3. cbn [app] in Ho3. rewrite stuff_app, <- app_assoc in Ho3. exact Ho3.
  Qed.

  Lemma loop_bits us : us <> [] -> path ri s0 us ->
    emits (loop us (bitw_new P, s0, 0, ri)) (coded_data 0 (map data_of (intervals ri us))) (bitw_new P).
  Proof.
    intros Hne Hp. unfold intervals. destruct (ri =? 0) eqn:E.
    - assert (Hz : ri = 0) by lia.
      destruct (loop_plain_bits Hz us [] (bitw_new P) s0 []) as (o & He & Ho).
      + apply inb_start.
      + cbn [length]. rewrite Hz in *. exact Hp.
      + cbn [app stuff flat_map] in Ho. rewrite Hz in *. cbn [map coded_data]. rewrite <- Ho. exact He.
    - destruct (loop_restart_bits ltac:(lia) us [] (bitw_new P) s0 [] 0) as (o & He & Ho).
      + exact Hne.
      + cbn; lia.
      + lia.
      + apply inb_start.
      + cbn [length]. now replace (ri - Z.of_nat 0) with ri by lia.
      + cbn [length] in He. replace (ri - Z.of_nat 0) with ri in He by lia.
        cbn [app stuff flat_map] in Ho. rewrite <- Ho. exact He.
  Qed.
End Loop.

(** ** Scans of one component *)
Lemma group_map {A B} (f : A -> B) n : forall fuel l, group fuel n (map f l) = map (map f) (group fuel n l).
Proof.
  induction fuel as [|fuel IH]; intros l; [reflexivity|]. destruct l as [|a l]; [reflexivity|].
  cbn [group map]. change (f a :: map f l) with (map f (a :: l)). rewrite firstn_map, skipn_map, IH. reflexivity.
Qed.
Lemma intervals_map {A B} (f : A -> B) ri l : intervals ri (map f l) = map (map f) (intervals ri l).
Proof. unfold intervals. destruct (ri =? 0); [reflexivity|]. rewrite map_length. apply group_map. Qed.

Lemma group_incl {A} n : forall fuel (l g : list A), In g (group fuel n l) -> incl g l.
Proof.
  induction fuel as [|fuel IH]; intros l g Hg; [destruct Hg|]. destruct l as [|a l]; [destruct Hg|].
  cbn [group] in Hg. destruct Hg as [<-|Hg]; intros x Hx.
  - rewrite <- (firstn_skipn n (a :: l)). apply in_or_app. now left.
  - rewrite <- (firstn_skipn n (a :: l)). apply in_or_app. right. now apply (IH _ _ Hg).
Qed.
Lemma intervals_incl {A} ri (l g : list A) : In g (intervals ri l) -> incl g l.
Proof. unfold intervals. destruct (ri =? 0); [intros [<-|[]]; apply incl_refl|]. apply group_incl. Qed.

Lemma slice_band b s e : length b = 64%nat -> 0 <= s -> s <= e <= 64 -> slice b s e = map (zn b) (band s (e - 1)).
Proof.
  intros Hl Hs He. unfold slice, band, upto. rewrite !map_map.
  replace (Z.to_nat (e - 1 - s + 1)) with (Z.to_nat (e - s)) by lia.
  apply (nth_ext _ _ 0 (zn b (s + Z.of_nat 0))).
  - rewrite firstn_length, skipn_length, map_length, seq_length. lia.
  - intros i Hi. rewrite firstn_length, skipn_length in Hi.
    rewrite (map_nth (fun k => zn b (s + Z.of_nat k))). rewrite seq_nth by lia. cbn [Nat.add].
    unfold zn. replace (Z.to_nat (s + Z.of_nat i)) with (Z.to_nat s + i)%nat by lia.
    rewrite <- (firstn_skipn (Z.to_nat s) b) at 2.
    rewrite app_nth2 by (rewrite firstn_length; lia). rewrite firstn_length.
    replace (Z.to_nat s + i - Nat.min (Z.to_nat s) (length b))%nat with i by lia.
    clear - Hi. revert Hi. generalize (skipn (Z.to_nat s) b) as l. generalize (Z.to_nat (e - s)) as n.
    intros n l Hi. assert (Hin : (i < n)%nat) by lia. clear Hi. revert i l Hin.
    induction n as [|n IH]; intros i l Hin; [lia|]. destruct l as [|x l]; [now destruct i|].
    destruct i as [|i]; [reflexivity|]. cbn [firstn nth]. apply IH. lia.
Qed.

(** The block of a unit holds the coefficients [cf]. *)
Definition agrees (cf : coefficients) (u : unitb) : Prop :=
  length (snd u) = 64%nat /\
  let '(ci, y, x) := fst u in forall k, 0 <= k < 64 -> zn (snd u) k = cf ci y x k.

Lemma agrees_slice cf ci y x b s e : agrees cf (ci, y, x, b) -> 0 <= s -> s <= e <= 64 ->
  slice b s e = map (cf ci y x) (band s (e - 1)).
Proof.
  intros [Hl Ha] Hs He. cbn [fst snd] in *. rewrite slice_band by assumption.
  apply map_ext_in. intros k Hk. apply Ha.
  unfold band, upto in Hk. rewrite map_map in Hk. apply in_map_iff in Hk as (j & <- & Hj).
  apply in_seq in Hj. lia.
Qed.

Lemma concat_singles {A B} (f : A -> B) l : concat (map (fun u => [f u]) l) = map f l.
Proof. induction l as [|a l IH]; [reflexivity|]. cbn [map concat app]. now rewrite IH. Qed.

Lemma intervals_data (f : list (list unit_pos) -> list Z) (f' : list unitb -> list Z) ri us :
  (forall g, incl g us -> f (map (fun u => [fst u]) g) = f' g) ->
  map f (intervals ri (map (fun u => [fst u]) us)) = map f' (intervals ri us).
Proof.
  intros H. rewrite intervals_map, map_map. apply map_ext_in. intros g Hg. apply H. now apply (intervals_incl ri).
Qed.

Lemma path_mono {U} ri (next : Z -> U -> Z) (good good' : Z -> U -> Prop) us : forall t s,
  (forall s u, In u us -> good s u -> good' s u) ->
  path Z U ri 0 next good t s us -> path Z U ri 0 next good' t s us.
Proof.
  induction us as [|u us IH]; intros t s H Hp; cbn [path] in *; [exact I|]. destruct Hp as [Hg Hp]. split.
  - apply H; [now left|exact Hg].
  - apply IH; [|exact Hp]. intros s' v Hv. apply H. now right.
Qed.

Section One.
  Variable P : platform.
  Variable HP : plat_ok P.
  Variable ri : Z.
  Variable Hri : 0 <= ri < 2 ^ 16.
  Variable ci : nat.
  Variables (tdc tac : htab) (bdc bac : table).
  Variable Ndc : uniq_syms bdc.
  Variable Nac : uniq_syms bac.
  Variables (dc ac : nat -> table).
  Variable Edc : dc ci = bdc.
  Variable Eac : ac ci = bac.
  Variable cf : coefficients.

  Definition seq_bits (s : Z) (u : unitb) : list bool :=
    encode_dc bdc s (zn (snd u) 0) ++ encode_ac bac 0 (slice (snd u) 1 64).
  Definition dc_bits (s : Z) (u : unitb) : list bool := encode_dc bdc s (zn (snd u) 0).
  Definition ac_bits (start end_ : Z) (s : unit) (u : unitb) : list bool :=
    encode_ac bac 0 (slice (snd u) start end_).

  (** As [seq_good], [dc_good], but the DC symbol may have no code word if the build has no debug assertions. *)
  Definition seq_writes (s : Z) (u : unitb) : Prop :=
    ci_of u = ci /\ block_ok (snd u) /\ writes P tdc bdc (nbits (zn (snd u) 0 - s)) /\
    Forall (codes tac bac) (ac_syms (slice (snd u) 1 64) 0).
  Definition dc_writes (s : Z) (u : unitb) : Prop :=
    ci_of u = ci /\ block_ok (snd u) /\ writes P tdc bdc (nbits (zn (snd u) 0 - s)).
  Lemma seq_good_writes s u : seq_good ci tdc tac bdc bac s u -> seq_writes s u.
  Proof. intros (H1 & H2 & H3 & H4). split; [exact H1|split; [exact H2|split; [now left|exact H4]]]. Qed.
  Lemma dc_good_writes s u : dc_good ci tdc bdc s u -> dc_writes s u.
  Proof. intros (H1 & H2 & H3). split; [exact H1|split; [exact H2|now left]]. Qed.

  Definition seq_good' (s : Z) (u : unitb) : Prop := -1024 <= s <= 1023 /\ seq_writes s u.
  Definition dc_good' (s : Z) (u : unitb) : Prop := -1024 <= s <= 1023 /\ dc_writes s u.

  Lemma path_range (good : Z -> unitb -> Prop) us : Forall (fun u => block_ok (snd u)) us -> forall t s,
    -1024 <= s <= 1023 -> path Z unitb ri 0 (fun _ u => zn (snd u) 0) good t s us ->
    path Z unitb ri 0 (fun _ u => zn (snd u) 0) (fun s u => -1024 <= s <= 1023 /\ good s u) t s us.
  Proof.
    induction us as [|u us IH]; intros HF t s Hs Hp; cbn [path] in *; [exact I|].
    inversion HF as [|? ? Hu Hus]; subst. destruct Hp as [Hg Hp]. split.
    - split; [|exact Hg]. destruct ((0 <? ri) && (t =? 0)); lia.
    - apply IH; try assumption. apply Hu.
  Qed.

  Lemma seq_units_eq us : Forall (fun u => ci_of u = ci /\ agrees cf u) us -> forall pred,
    encode_units dc ac 0 63 cf pred (map fst us) = enc Z unitb (fun _ u => zn (snd u) 0) seq_bits (pred ci) us.
  Proof.
    induction us as [|[[[c y] x] b] us IH]; intros HF pred; [reflexivity|].
    apply Forall_cons_iff in HF as [[Hc Ha] HF']. cbn [ci_of fst snd] in Hc. subst c.
    cbn [map fst encode_units enc snd]. change (0 =? 0) with true. cbv iota.
    rewrite IH by assumption. rewrite Nat.eqb_refl.
    destruct Ha as [Hl Ha]. pose proof (Ha 0 ltac:(lia)) as H0. cbn [fst snd] in H0.
    unfold seq_bits at 2. cbn [snd]. rewrite Edc, Eac, <- H0, <- app_assoc. f_equal. f_equal.
    rewrite (agrees_slice cf ci y x b 1 64) by (try split; assumption || lia). reflexivity.
  Qed.
  Lemma dc_units_eq us : Forall (fun u => ci_of u = ci /\ agrees cf u) us -> forall pred,
    encode_units dc ac 0 0 cf pred (map fst us) = enc Z unitb (fun _ u => zn (snd u) 0) dc_bits (pred ci) us.
  Proof.
    induction us as [|[[[c y] x] b] us IH]; intros HF pred; [reflexivity|].
    apply Forall_cons_iff in HF as [[Hc Ha] HF']. cbn [ci_of fst snd] in Hc. subst c.
    cbn [map fst encode_units enc snd]. change (0 =? 0) with true. cbv iota.
    rewrite IH by assumption. rewrite Nat.eqb_refl.
    destruct Ha as [Hl Ha]. pose proof (Ha 0 ltac:(lia)) as H0. cbn [fst snd] in H0.
    unfold dc_bits at 2. cbn [snd]. rewrite Edc, <- H0. reflexivity.
  Qed.
  Lemma ac_units_eq start end_ us : 1 <= start -> start <= end_ <= 64 ->
    Forall (fun u => ci_of u = ci /\ agrees cf u) us -> forall pred,
    encode_units dc ac start (end_ - 1) cf pred (map fst us)
    = enc unit unitb (fun _ _ => tt) (ac_bits start end_) tt us.
  Proof.
    intros Hs He. induction us as [|[[[c y] x] b] us IH]; intros HF pred; [reflexivity|].
    apply Forall_cons_iff in HF as [[Hc Ha] HF']. cbn [ci_of fst snd] in Hc. subst c.
    cbn [map fst encode_units enc snd]. replace (start =? 0) with false by lia. cbn [app].
    rewrite IH by assumption. f_equal. unfold ac_bits. cbn [snd]. rewrite Eac. replace (Z.max 1 start) with start by lia.
    rewrite (agrees_slice cf ci y x b start end_) by (assumption || lia). reflexivity.
  Qed.

  Definition spec_data (ss se : Z) (mcus : list (list unit_pos)) : list (list Z) :=
    map (fun m => pack (encode_units dc ac ss se cf (fun _ => 0) (concat m))) (intervals ri mcus).

  Lemma incl_Forall {A} (Q : A -> Prop) (g l : list A) : incl g l -> Forall Q l -> Forall Q g.
  Proof. intros Hi HF. rewrite Forall_forall in *. auto. Qed.

  Lemma sequential_scan_bytes us : us <> [] -> Forall (fun u => ci_of u = ci /\ agrees cf u) us ->
    Forall (fun u => block_ok (snd u)) us ->
    path Z unitb ri 0 (fun _ u => zn (snd u) 0) seq_writes ri 0 us ->
    emits (sequential_scan P ri (map snd us) tdc tac (bitw_new P))
          (coded_data 0 (spec_data 0 63 (map (fun u => [fst u]) us))) (bitw_new P).
  Proof.
    intros Hne Ha Hb Hp. unfold spec_data.
    rewrite (intervals_data _ (data_of Z unitb 0 (fun _ u => zn (snd u) 0) seq_bits)).
    2:{ intros g Hg. rewrite concat_singles, seq_units_eq; [reflexivity|]. now apply (incl_Forall _ g us). }
    unfold emits. rewrite sequential_scan_loop.
    apply (loop_bits P HP Z unitb ri Hri 0 (seq_step P tdc tac) _ seq_good').
    - intros s u [Hs (Hc & Hbl & Hdc & Hac)]. apply appendsS_ret.
      now apply write_block_bits.
    - exact Hne.
    - apply path_range; [exact Hb|lia|exact Hp].
  Qed.

  Lemma dc_scan_bytes us : us <> [] -> Forall (fun u => ci_of u = ci /\ agrees cf u) us ->
    Forall (fun u => block_ok (snd u)) us ->
    path Z unitb ri 0 (fun _ u => zn (snd u) 0) dc_writes ri 0 us ->
    emits (dc_scan P ri (map snd us) tdc (bitw_new P))
          (coded_data 0 (spec_data 0 0 (map (fun u => [fst u]) us))) (bitw_new P).
  Proof.
    intros Hne Ha Hb Hp. unfold spec_data.
    rewrite (intervals_data _ (data_of Z unitb 0 (fun _ u => zn (snd u) 0) dc_bits)).
    2:{ intros g Hg. rewrite concat_singles, dc_units_eq; [reflexivity|]. now apply (incl_Forall _ g us). }
    unfold emits. rewrite dc_scan_loop.
    apply (loop_bits P HP Z unitb ri Hri 0 (dc_step P tdc) _ dc_good').
    - intros s u [Hs (Hc & Hbl & Hdc)]. apply appendsS_ret.
      apply write_dc_bits; auto. now apply block_ok_dcdiff.
    - exact Hne.
    - apply path_range; [exact Hb|lia|exact Hp].
  Qed.

  Lemma ac_scan_bytes start end_ us : 1 <= start -> start <= end_ <= 64 -> us <> [] ->
    Forall (fun u => ci_of u = ci /\ agrees cf u) us ->
    Forall (ac_good ci tac bac start end_ tt) us ->
    emits (ac_scan P ri (map snd us) start end_ tac (bitw_new P))
          (coded_data 0 (spec_data start (end_ - 1) (map (fun u => [fst u]) us))) (bitw_new P).
  Proof.
    intros Hs He Hne Ha Hg. unfold spec_data.
    rewrite (intervals_data _ (data_of unit unitb tt (fun _ _ => tt) (ac_bits start end_))).
    2:{ intros g Hi. rewrite concat_singles, ac_units_eq; try assumption; [reflexivity|]. now apply (incl_Forall _ g us). }
    unfold emits. rewrite ac_scan_loop.
    apply (loop_bits P HP unit unitb ri Hri tt (ac_step P tac start end_) _ (ac_good ci tac bac start end_)).
    - intros [] u (Hc & Hbl & Hac). intros w pend Hrep.
      destruct (write_ac_block_bits P HP tac bac (snd u) start end_ Nac) with (w := w) (pend := pend)
        as (w' & d & p & Hem & Hrr); auto.
      { apply Hbl. }
      { apply block_ok_slice; auto; lia. }
      exists w', d, p. split; [|exact Hrr].
      rewrite <- (app_nil_r (stuff d)). eapply emits_bind; [exact Hem|]. apply emits_ret.
    - exact Hne.
    - clear - Hg. generalize ri at 2. induction us as [|u us IH]; intros t; cbn [path]; [exact I|].
      inversion Hg as [|? ? Hu Hus]; subst. split; [destruct ((0 <? ri) && (t =? 0)); exact Hu|]. now apply IH.
  Qed.
End One.
