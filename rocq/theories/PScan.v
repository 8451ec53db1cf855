(** A generic scan loop with restart intervals, and its decoding. *)
From Verif Require Export PExec PBits PHuff PBlock MEncoder.
From Verif Require Import T81.
From Coq Require Import ZifyBool ZifyNat.
Local Ltac Zify.zify_post_hook ::= Z.div_mod_to_equations.

Definition appendsS {S} (P : platform) (f : bitw -> prog (bitw * S)) (bits : list bool) (s' : S)
  : Prop :=
  forall w pend, rep P w pend ->
  exists w' data pend', emits (f w) (stuff data) (w', s') /\ bytes_ok data /\ rep P w' pend' /\
                        pend ++ bits = bits_of_bytes data ++ pend'.

Lemma bytes_ok_app a b : bytes_ok (a ++ b) <-> bytes_ok a /\ bytes_ok b.
Proof. apply Forall_app. Qed.

(** ** Decoding lists of units *)
Lemma decode_units_app sc us1 : forall us2 st bits es1 st1 bits1 es2 st2 bits2,
  decode_units sc st us1 bits = Some (es1, st1, bits1) ->
  decode_units sc st1 us2 bits1 = Some (es2, st2, bits2) ->
  decode_units sc st (us1 ++ us2) bits = Some (es1 ++ es2, st2, bits2).
Proof.
  induction us1 as [|u us1 IH]; intros us2 st bits es1 st1 bits1 es2 st2 bits2 H1 H2;
    cbn [decode_units app] in *.
  - inversion H1; subst. exact H2.
  - destruct (decode_unit sc st u bits) as [[[e st'] bits']|]; [|discriminate].
    destruct (decode_units sc st' us1 bits') as [[[es st''] bits'']|] eqn:E; [|discriminate].
    inversion H1; subst. rewrite (IH _ _ _ _ _ _ _ _ _ E H2). reflexivity.
Qed.

(** ** Grouping *)
Lemma group_length_fuel {A} n : (0 < n)%nat -> forall f1 f2 (l : list A),
  (length l <= f1)%nat -> (length l <= f2)%nat -> group f1 n l = group f2 n l.
Proof.
  intros Hn. induction f1 as [|f1 IH]; intros f2 l H1 H2.
  - destruct l; [|cbn in H1; lia]. destruct f2; reflexivity.
  - destruct f2 as [|f2]; [destruct l; [reflexivity|cbn in H2; lia]|].
    destruct l as [|x l]; [reflexivity|]. cbn [group]. f_equal.
    apply IH; rewrite skipn_length; cbn [length] in *; lia.
Qed.

Lemma group_full {A} n (dn us : list A) :
  (0 < n)%nat -> length dn = n ->
  group (length (dn ++ us)) n (dn ++ us) = dn :: group (length us) n us.
Proof.
  intros Hn Hd. destruct dn as [|x dn]; [cbn in Hd; lia|].
  rewrite app_length. cbn [length Nat.add].
  change ((x :: dn) ++ us) with (x :: (dn ++ us)). cbn [group].
  change (x :: dn ++ us) with ((x :: dn) ++ us).
  rewrite firstn_app, Hd, Nat.sub_diag, firstn_all2 by lia. cbn [firstn]. rewrite app_nil_r. f_equal.
  rewrite skipn_app, Hd, Nat.sub_diag, skipn_all2 by lia. cbn [skipn app].
  apply group_length_fuel; lia.
Qed.

Lemma group_last {A} n (dn : list A) :
  (0 < n)%nat -> dn <> [] -> (length dn <= n)%nat -> group (length dn) n dn = [dn].
Proof.
  intros Hn Hne Hl. destruct dn as [|x dn]; [easy|]. cbn [length group].
  rewrite firstn_all2, skipn_all2 by assumption. f_equal. destruct (length dn); reflexivity.
Qed.

Section Loop.
  Variable P : platform.
  Variable HP : plat_ok P.
  Variables (S U : Type).
  Variable ri : Z.                             (* restart interval, 0 = none *)
  Variable Hri : 0 <= ri < 2 ^ 16.
  Variable s0 : S.                             (* prediction state at the start of an interval *)
  Variable step : S -> U -> bitw -> prog (bitw * S).   (* one MCU *)

  Definition loop_body (st : bitw * S * Z * Z) (u : U) : prog (bitw * S * Z * Z) :=
    let '(w, s, restarts, to_go) := st in
    let* '(w, s) :=
      (if (0 <? ri) && (to_go =? 0) then
         let* w := finalize_bit_buffer P w in
         write_marker (RST (restarts mod 8)) ;;;
         Ret (w, s0)
       else Ret (w, s)) in
    let* '(w, s) := step s u w in
    let* '(restarts, to_go) := restart_after P ri restarts to_go in
    Ret (w, s, restarts, to_go).

  Definition loop (us : list U) (st : bitw * S * Z * Z) : prog bitw :=
    let* '(w, _, _, _) := foldM loop_body us st in finalize_bit_buffer P w.

  (** Decoder side *)
  Variable sc : T81.scan.
  Variable nc : nat.
  Variable pos : U -> list unit_pos.
  Variable ent : U -> list entry.
  Variable next : S -> U -> S.
  Variable good : S -> U -> Prop.
  Variable sim : S -> dstate -> Prop.
  Variable sim0 : sim s0 (repeat 0 nc, 0).
  Variable sim_run : forall s ds, sim s ds -> snd ds = 0.
  Variable step_ok : forall s u ds, sim s ds -> good s u ->
    exists bits ds', appendsS P (step s u) bits (next s u) /\ sim (next s u) ds' /\
      forall rest, decode_units sc ds (pos u) (bits ++ rest) = Some (ent u, ds', rest).

  (** All MCUs can be coded, following the prediction state with its resets at restarts. *)
  Fixpoint path (to_go : Z) (s : S) (us : list U) : Prop :=
    match us with
    | [] => True
    | u :: r =>
      let s := if (0 <? ri) && (to_go =? 0) then s0 else s in
      good s u /\ path (if to_go =? 0 then ri - 1 else to_go - 1) (next s u) r
    end.

  Definition mcu_pos (us : list U) : list (list unit_pos) := map pos us.

  (** State inside an interval: [dn] are the MCUs done, [d] the bytes already written. *)
  Definition inside (dn : list U) (w : bitw) (s : S) (d : list Z) : Prop :=
    exists pend ds, rep P w pend /\ bytes_ok d /\ sim s ds /\
      forall rest, decode_units sc (repeat 0 nc, 0) (concat (mcu_pos dn))
                     (bits_of_bytes d ++ pend ++ rest) = Some (flat_map ent dn, ds, rest).

  Lemma inside_start : inside [] (bitw_new P) s0 [].
  Proof.
    exists [], (repeat 0 nc, 0). split; [now apply rep_new|]. split; [constructor|].
    split; [exact sim0|]. reflexivity.
  Qed.

  Lemma inside_step dn w s d u :
    inside dn w s d -> good s u ->
    exists w' d', emits (step s u w) (stuff d') (w', next s u) /\
                  inside (dn ++ [u]) w' (next s u) (d ++ d').
  Proof.
    intros (pend & ds & Hrep & Hok & Hsim & Hdec) Hg.
    destruct (step_ok s u ds Hsim Hg) as (bits & ds' & Ha & Hsim' & Hd').
    destruct (Ha w pend Hrep) as (w' & d' & pend' & He & Hok' & Hrep' & Hb).
    exists w', d'. split; [exact He|]. exists pend', ds'.
    split; [exact Hrep'|]. split; [now apply Forall_app|]. split; [exact Hsim'|].
    intros rest. unfold mcu_pos. rewrite map_app, concat_app, flat_map_app. cbn [map concat flat_map].
    rewrite !app_nil_r. eapply decode_units_app; [|apply Hd'].
    replace (bits_of_bytes (d ++ d') ++ pend' ++ rest)
      with (bits_of_bytes d ++ pend ++ bits ++ rest); [apply Hdec|].
    rewrite bits_of_bytes_app, <- !app_assoc. f_equal. rewrite !app_assoc. f_equal. exact Hb.
  Qed.

  Lemma inside_finish dn w s d :
    inside dn w s d ->
    exists o, emits (finalize_bit_buffer P w) o (bitw_new P) /\ bytes_ok o /\
      forall m rest, m <> 0 ->
        decode_interval sc nc (mcu_pos dn) (stuff d ++ o ++ 255 :: m :: rest)
        = Some (flat_map ent dn, 255 :: m :: rest).
  Proof.
    intros (pend & ds & Hrep & Hok & Hsim & Hdec).
    destruct (emits_finalize P w pend HP Hrep) as (data & pad & He & Hokd & Hb & Hlen & Hones).
    exists (stuff data). split; [exact He|]. split; [now apply stuff_bytes_ok|].
    intros m rest Hm. unfold decode_interval.
    rewrite app_assoc, <- stuff_app, entropy_bytes_stuff by assumption.
    rewrite bits_of_bytes_app, Hb.
    pose proof (Hdec pad) as Hd. rewrite Hd.
    rewrite (sim_run _ _ Hsim). rewrite Hones.
    replace (length pad <? 8)%nat with true by lia. reflexivity.
  Qed.

  Lemma restart_after_ok restarts to_go :
    0 <= to_go <= ri -> 0 < ri ->
    restart_after P ri restarts to_go =
    Ret (if to_go =? 0 then (Z.land (restarts + 1) 7, ri - 1) else (restarts, to_go - 1)).
  Proof.
    intros H Hp. unfold restart_after. replace (0 <? ri) with true by lia.
    destruct (to_go =? 0) eqn:E; rewrite ck_u_ret by lia; reflexivity.
  Qed.

  Lemma loop_cons u us st o1 st' o2 w' :
    emits (loop_body st u) o1 st' -> emits (loop us st') o2 w' ->
    emits (loop (u :: us) st) (o1 ++ o2) w'.
  Proof.
    intros H1 H2. unfold loop in *.
    apply emits_bind_inv in H2 as (oa & sa & ob & Ha & Hb & ->).
    rewrite app_assoc. eapply emits_bind; [|exact Hb].
    cbn [foldM]. eapply emits_bind; eassumption.
  Qed.

  (** With restart interval [ri > 0]. *)
  Lemma loop_restart : 0 < ri -> forall us dn w s d m,
    dn ++ us <> [] -> (length dn <= Z.to_nat ri)%nat -> 0 <= m ->
    inside dn w s d -> path (ri - Z.of_nat (length dn)) s us ->
    exists o, emits (loop us (w, s, m mod 8, ri - Z.of_nat (length dn))) o (bitw_new P) /\ bytes_ok o /\
      forall mk rest, mk <> 0 ->
        decode_intervals sc nc m (group (length (mcu_pos (dn ++ us))) (Z.to_nat ri) (mcu_pos (dn ++ us)))
          (stuff d ++ o ++ 255 :: mk :: rest)
        = Some (flat_map ent (dn ++ us), 255 :: mk :: rest).
  Proof.
    intros Hp. induction us as [|u us IH]; intros dn w s d m Hne Hl Hm Hin Hg.
    - destruct (inside_finish dn w s d Hin) as (o & He & Hok & Hd).
      exists o. split; [|split; [exact Hok|]].
      + unfold loop. cbn [foldM bind]. exact He.
      + intros mk rest Hmk. rewrite app_nil_r in *.
        rewrite group_last.
        * cbn [decode_intervals]. apply Hd. exact Hmk.
        * lia.
        * unfold mcu_pos. intros E. apply map_eq_nil in E. easy.
        * unfold mcu_pos. rewrite map_length. exact Hl.
    - cbn [path] in Hg. replace (0 <? ri) with true in Hg by lia. cbn [andb] in Hg.
      destruct (Nat.eq_dec (length dn) (Z.to_nat ri)) as [Hfull|Hnf].
      + (* the interval is complete: write a restart marker *)
        assert (Hz : ri - Z.of_nat (length dn) = 0) by lia. rewrite Hz in *. cbn [Z.eqb] in Hg.
        destruct Hg as [Hgu Hgr].
        destruct (inside_finish dn w s d Hin) as (o1 & He1 & Hok1 & Hd1).
        destruct (inside_step [] (bitw_new P) s0 [] u inside_start Hgu) as (w2 & d2 & He2 & Hin2).
        cbn [app] in Hin2.
        destruct (IH [u] w2 (next s0 u) d2 (m + 1)) as (o3 & He3 & Hok3 & Hd3).
        { easy. }
        { cbn [length]. lia. }
        { lia. }
        { exact Hin2. }
        { exact Hgr. }
        exists ((o1 ++ [255; 208 + m mod 8] ++ stuff d2) ++ o3).
        assert (Hb2 : bytes_ok d2) by (destruct Hin2 as (? & ? & ? & ? & ?); assumption).
        split; [|split].
        * eapply loop_cons; [|exact He3].
          unfold loop_body. replace (0 <? ri) with true by lia. cbn [andb Z.eqb].
          rewrite app_assoc. eapply emits_bind.
          -- eapply emits_bind; [exact He1|].
             rewrite <- (app_nil_r [255; _]). eapply emits_bind; [|apply emits_ret].
             unfold write_marker, write, marker_byte.
             rewrite Z.mod_mod by lia. change 0xFF with 255. change 0xD0 with 208. apply emits_write_all.
          -- cbv beta iota. rewrite <- (app_nil_r (stuff d2)). eapply emits_bind; [exact He2|].
             cbv beta iota. rewrite restart_after_ok by lia. cbn [bind Z.eqb].
             replace (Z.land (m mod 8 + 1) 7) with ((m + 1) mod 8); [apply emits_ret|].
             change 7 with (Z.ones 3). rewrite Z.land_ones by lia. change (2 ^ 3) with 8.
             rewrite Zplus_mod_idemp_l. reflexivity.
        * rewrite !bytes_ok_app. repeat split; auto; [|now apply stuff_bytes_ok].
          unfold bytes_ok. repeat constructor; pose proof (Z.mod_pos_bound m 8); lia.
        * intros mk rest Hmk. unfold mcu_pos. rewrite map_app, group_full; [|lia|now rewrite map_length].
          specialize (Hd3 mk rest Hmk). cbn [app] in Hd3. unfold mcu_pos in Hd3. cbn [map].
          rewrite <- !app_assoc. cbn [app].
          assert (G : exists g gs, group (length (pos u :: map pos us)) (Z.to_nat ri) (pos u :: map pos us)
                      = g :: gs) by (cbn [length group]; eauto).
          destruct G as (g & gs & G). cbn [map] in Hd3. rewrite G in *.
          cbn [decode_intervals].
          change (map pos dn) with (mcu_pos dn). rewrite Hd1 by lia.
          rewrite !Z.eqb_refl. cbn [andb].
          cbn [decode_intervals] in Hd3. rewrite Hd3.
          rewrite !flat_map_app. cbn [flat_map]. reflexivity.
      + assert (Hz : ri - Z.of_nat (length dn) =? 0 = false) by lia. rewrite Hz in Hg.
        destruct Hg as [Hgu Hgr].
        destruct (inside_step dn w s d u Hin Hgu) as (w2 & d2 & He2 & Hin2).
        destruct (IH (dn ++ [u]) w2 (next s u) (d ++ d2) m) as (o3 & He3 & Hok3 & Hd3).
        { rewrite <- app_assoc. exact Hne. }
        { rewrite app_length. cbn [length]. lia. }
        { lia. }
        { exact Hin2. }
        { rewrite app_length. cbn [length].
          replace (ri - Z.of_nat (length dn + 1)) with (ri - Z.of_nat (length dn) - 1) by lia. exact Hgr. }
        assert (Hb2 : bytes_ok d2).
        { destruct Hin2 as (? & ? & ? & Hb & ?). apply bytes_ok_app in Hb. apply Hb. }
        exists (stuff d2 ++ o3). split; [|split].
        * eapply loop_cons; [|exact He3].
          unfold loop_body. rewrite Hz, andb_false_r. cbn [bind].
          rewrite <- (app_nil_r (stuff d2)). eapply emits_bind; [exact He2|].
          cbv beta iota. rewrite restart_after_ok by lia. rewrite Hz. cbn [bind].
          rewrite app_length. cbn [length].
          replace (ri - Z.of_nat (length dn + 1)) with (ri - Z.of_nat (length dn) - 1) by lia.
          apply emits_ret.
        * rewrite bytes_ok_app. split; [now apply stuff_bytes_ok|exact Hok3].
        * intros mk rest Hmk. specialize (Hd3 mk rest Hmk).
          rewrite <- !app_assoc in Hd3. cbn [app] in Hd3. rewrite stuff_app, <- app_assoc in Hd3.
          rewrite <- app_assoc. exact Hd3.
  Qed.

  (** Without restarts. *)
  Lemma loop_plain : ri = 0 -> forall us dn w s d,
    inside dn w s d -> path (0 - Z.of_nat (length dn)) s us ->
    exists o, emits (loop us (w, s, 0, 0)) o (bitw_new P) /\ bytes_ok o /\
      forall mk rest, mk <> 0 ->
        decode_interval sc nc (mcu_pos (dn ++ us)) (stuff d ++ o ++ 255 :: mk :: rest)
        = Some (flat_map ent (dn ++ us), 255 :: mk :: rest).
  Proof.
    intros Hz. induction us as [|u us IH]; intros dn w s d Hin Hg.
    - destruct (inside_finish dn w s d Hin) as (o & He & Hok & Hd).
      exists o. split; [exact He|]. split; [exact Hok|].
      intros mk rest Hmk. rewrite app_nil_r. auto.
    - cbn [path] in Hg. rewrite Hz in Hg. cbn [Z.ltb Z.compare andb] in Hg.
      destruct Hg as [Hgu Hgr].
      destruct (inside_step dn w s d u Hin Hgu) as (w2 & d2 & He2 & Hin2).
      destruct (IH (dn ++ [u]) w2 (next s u) (d ++ d2)) as (o3 & He3 & Hok3 & Hd3).
      { exact Hin2. }
      { rewrite app_length. cbn [length].
        replace (0 - Z.of_nat (length dn + 1)) with (if 0 - Z.of_nat (length dn) =? 0 then 0 - 1
           else 0 - Z.of_nat (length dn) - 1); [exact Hgr|].
        destruct (0 - Z.of_nat (length dn) =? 0) eqn:E; lia. }
      assert (Hb2 : bytes_ok d2).
      { destruct Hin2 as (? & ? & ? & Hb & ?). apply bytes_ok_app in Hb. apply Hb. }
      exists (stuff d2 ++ o3). split; [|split].
      + eapply loop_cons; [|exact He3].
        unfold loop_body. rewrite Hz. cbn [Z.ltb Z.compare andb bind].
        rewrite <- (app_nil_r (stuff d2)). eapply emits_bind; [exact He2|].
        cbv beta iota. unfold restart_after. cbn [Z.ltb Z.compare bind]. apply emits_ret.
      + rewrite bytes_ok_app. split; [now apply stuff_bytes_ok|exact Hok3].
      + intros mk rest Hmk. specialize (Hd3 mk rest Hmk).
        rewrite <- !app_assoc in Hd3. cbn [app] in Hd3. rewrite stuff_app, <- app_assoc in Hd3.
        rewrite <- app_assoc. exact Hd3.
  Qed.

  (** Both together: a whole scan. *)
  Lemma loop_ok us :
    us <> [] -> path ri s0 us ->
    exists o, emits (loop us (bitw_new P, s0, 0, ri)) o (bitw_new P) /\ bytes_ok o /\
      forall mk rest, mk <> 0 ->
        decode_intervals sc nc 0 (intervals ri (mcu_pos us)) (o ++ 255 :: mk :: rest)
        = Some (flat_map ent us, 255 :: mk :: rest).
  Proof.
    intros Hne Hp. unfold intervals. destruct (ri =? 0) eqn:E.
    - assert (Hz : ri = 0) by lia. destruct (loop_plain Hz us [] (bitw_new P) s0 []) as (o & He & Hok & Hd).
      + apply inside_start.
      + cbn [length]. rewrite Hz in Hp. exact Hp.
      + exists o. rewrite Hz. split; [exact He|]. split; [exact Hok|].
        intros mk rest Hmk. cbn [decode_intervals]. exact (Hd mk rest Hmk).
    - destruct (loop_restart ltac:(lia) us [] (bitw_new P) s0 [] 0) as (o & He & Hok & Hd).
      + exact Hne.
      + cbn; lia.
      + lia.
      + apply inside_start.
      + cbn [length]. now replace (ri - Z.of_nat 0) with ri by lia.
      + exists o. cbn [length] in He. replace (ri - Z.of_nat 0) with ri in He by lia.
        split; [exact He|]. split; [exact Hok|]. intros mk rest Hmk. exact (Hd mk rest Hmk).
  Qed.

  (** When [good] does not depend on the state beyond [sim]. *)
  Lemma path_uniform : forall us to_go s ds,
    sim s ds -> Forall (fun u => forall s ds, sim s ds -> good s u) us -> path to_go s us.
  Proof.
    induction us as [|u us IH]; intros to_go s ds Hs HF; cbn [path]; [exact I|].
    inversion HF as [|? ? Hu Hus]; subst.
    destruct ((0 <? ri) && (to_go =? 0)).
    - split; [now apply (Hu _ _ sim0)|].
      destruct (step_ok s0 u _ sim0 (Hu _ _ sim0)) as (? & ds' & ? & Hs' & ?). now apply (IH _ _ ds').
    - split; [now apply (Hu _ _ Hs)|].
      destruct (step_ok s u _ Hs (Hu _ _ Hs)) as (? & ds' & ? & Hs' & ?). now apply (IH _ _ ds').
  Qed.

  Lemma loop_ok_uniform us :
    us <> [] -> Forall (fun u => forall s ds, sim s ds -> good s u) us ->
    exists o, emits (loop us (bitw_new P, s0, 0, ri)) o (bitw_new P) /\ bytes_ok o /\
      forall mk rest, mk <> 0 ->
        decode_intervals sc nc 0 (intervals ri (mcu_pos us)) (o ++ 255 :: mk :: rest)
        = Some (flat_map ent us, 255 :: mk :: rest).
  Proof.
    intros Hne HF. apply loop_ok; [exact Hne|]. eapply path_uniform; [apply sim0|exact HF].
  Qed.
End Loop.
