(** Scan headers and scans. *)
From Verif Require Export PSegments.
From Verif Require Import T81.
From Coq Require Import ZifyBool ZifyNat.
Local Ltac Zify.zify_post_hook ::= Z.div_mod_to_equations.

Definition sel_bytes (c : component) : list Z := [c_id c; 16 * c_dc c + c_ac c].
Definition sos_payload (cs : list component) (ss se : Z) : list Z :=
  zlen cs :: flat_map sel_bytes cs ++ [ss; se; 0].
Definition spectral (sp : option (Z * Z)) : Z * Z := match sp with Some p => p | None => (0, 63) end.

Lemma sel_bytes_length cs : length (flat_map sel_bytes cs) = (2 * length cs)%nat.
Proof. induction cs as [|c cs IH]; [reflexivity|]. cbn [flat_map sel_bytes app length]. lia. Qed.

Lemma emits_write_sos cs sp : Forall comp_small cs -> (length cs <= 4)%nat ->
  emits (write_scan_header cs sp) (seg 218 (sos_payload cs (fst (spectral sp)) (snd (spectral sp)))) tt.
Proof.
  intros Hc Hl. unfold write_scan_header, seg.
  replace (zlen (sos_payload cs (fst (spectral sp)) (snd (spectral sp))) + 2) with (2 + 1 + zlen cs * 2 + 3).
  2:{ unfold sos_payload, zlen. cbn [length]. rewrite app_length, sel_bytes_length. cbn [length]. lia. }
  change (255 :: 218 :: be_bytes 2 (2 + 1 + zlen cs * 2 + 3) ++ sos_payload cs (fst (spectral sp)) (snd (spectral sp)))
  with ([255; 218] ++ be_bytes 2 (2 + 1 + zlen cs * 2 + 3) ++ [zlen cs] ++
        flat_map sel_bytes cs ++ [fst (spectral sp)] ++ [snd (spectral sp)] ++ [0]).
  eapply emits_bind; [apply emits_write_all|].
  eapply emits_bind; [apply emits_write_all|].
  eapply emits_bind; [apply emits_write_all|].
  eapply (emits_bind _ _ _ tt).
  - clear Hl. induction cs as [|c cs IH]; [apply emits_ret|]. inversion Hc as [|? ? Hs Hc']; subst.
    cbn [foldM flat_map]. eapply emits_bind; [|apply IH; assumption].
    unfold sel_bytes. change [c_id c; 16 * c_dc c + c_ac c] with ([c_id c] ++ [16 * c_dc c + c_ac c]).
    eapply emits_bind; [apply emits_write_all|]. unfold comp_small in Hs. rewrite lor_nibble by lia.
    apply emits_write_all.
  - unfold spectral. destruct sp as [[ss se]|]; cbn [fst snd];
      (eapply emits_bind; [apply emits_write_all|]; eapply emits_bind; [apply emits_write_all|apply emits_write_all]).
Qed.

(** Component selection. *)
Definition ksel (k : nat * component) : nat * comp * Z * Z :=
  (fst k, comp_of (snd k), c_dc (snd k), c_ac (snd k)).
Definition selects (cs : list component) (ks : list (nat * component)) : Prop :=
  forall tail, parse_selectors (length ks) 0 (map comp_of cs) (flat_map sel_bytes (map snd ks) ++ tail)
               = Some (map ksel ks, tail).

Lemma parse_selectors_S n pos c cs id t p : parse_selectors (S n) pos (c :: cs) (id :: t :: p) =
  if co_id c =? id then
    do (sel, p'') <- parse_selectors n (S pos) cs p; Some ((pos, c, t / 16, t mod 16) :: sel, p'')
  else parse_selectors (S n) (S pos) cs (id :: t :: p).
Proof. reflexivity. Qed.

Lemma selects_one_gen cs : forall pos i c id0 tail, Forall comp_small cs ->
  (forall j d, nth_error cs j = Some d -> c_id d = id0 + Z.of_nat j) -> nth_error cs i = Some c ->
  parse_selectors 1 pos (map comp_of cs) (sel_bytes c ++ tail) = Some ([((pos + i)%nat, comp_of c, c_dc c, c_ac c)], tail).
Proof.
  induction cs as [|d cs IH]; intros pos i c id0 tail Hs Hid Hi; [destruct i; discriminate|].
  inversion Hs as [|? ? Hd Hs']; subst.
  cbn [map]. unfold sel_bytes. cbn [app]. rewrite parse_selectors_S. cbn [comp_of co_id].
  pose proof (Hid 0%nat d eq_refl) as H0. pose proof (Hid i c Hi) as H1.
  destruct i as [|i].
  - cbn in Hi. inversion Hi; subst d. replace (c_id c =? c_id c) with true by lia.
    cbn [parse_selectors]. unfold comp_small in Hd.
    replace ((16 * c_dc c + c_ac c) / 16) with (c_dc c) by lia.
    replace ((16 * c_dc c + c_ac c) mod 16) with (c_ac c) by lia. rewrite Nat.add_0_r. reflexivity.
  - replace (c_id d =? c_id c) with false by lia. replace (pos + S i)%nat with (S pos + i)%nat by lia.
    apply (IH (S pos) i c (id0 + 1)); auto. intros j e Hj. rewrite (Hid (S j) e Hj). lia.
Qed.

Lemma selects_one cs mh mv i c : comps_ok cs mh mv -> nth_error cs i = Some c -> selects cs [(i, c)].
Proof.
  intros Hc Hi tail. cbn [length map snd flat_map]. rewrite app_nil_r.
  rewrite (selects_one_gen cs 0 i c 0); [reflexivity|now apply (comps_small cs mh mv)| |assumption].
  intros j d Hj. rewrite (ck_id _ _ _ _ _ (cs_comp _ _ _ Hc _ _ Hj)). lia.
Qed.

Lemma selects_all_gen cs : forall pos tail, Forall comp_small cs ->
  parse_selectors (length cs) pos (map comp_of cs) (flat_map sel_bytes cs ++ tail) =
  Some (map ksel (combine (seq pos (length cs)) cs), tail).
Proof.
  induction cs as [|c cs IH]; intros pos tail Hs; [reflexivity|].
  inversion Hs as [|? ? Hd Hs']; subst.
  cbn [length map flat_map]. unfold sel_bytes at 1. rewrite <- app_assoc. cbn [app].
  rewrite parse_selectors_S. cbn [comp_of co_id]. rewrite Z.eqb_refl.
  rewrite IH by assumption. cbn [seq combine map ksel fst snd]. unfold comp_small in Hd.
  replace ((16 * c_dc c + c_ac c) / 16) with (c_dc c) by lia.
  replace ((16 * c_dc c + c_ac c) mod 16) with (c_ac c) by lia. reflexivity.
Qed.

Lemma combine_snd {A B} (l : list A) : forall (l' : list B), length l = length l' -> map snd (combine l l') = l'.
Proof. induction l as [|a l IH]; intros [|b l'] H; try discriminate; [reflexivity|]. cbn. f_equal. apply IH. cbn in H. lia. Qed.

Lemma selects_all cs mh mv : comps_ok cs mh mv -> selects cs (combine (seq 0 (length cs)) cs).
Proof.
  intros Hc tail. rewrite combine_length, seq_length, Nat.min_id.
  rewrite combine_snd by apply seq_length. apply selects_all_gen. now apply (comps_small cs mh mv).
Qed.

(** *** A scan *)
Definition add_scan (st : state) (es : list entry) (si : scan_info) : state :=
  {| st_frame := st_frame st; st_qt := st_qt st; st_dc := st_dc st; st_ac := st_ac st;
     st_ri := st_ri st; st_app := st_app st; st_log := st_log st ++ es; st_scans := st_scans st ++ [si] |}.

Definition scan_of (p : bool) (st : state) (ks : list (nat * component)) (ss se : Z) : scan :=
  {| sc_progressive := p; sc_ss := ss; sc_se := se;
     sc_dc := table_for (st_dc st) (map (fun k => (fst k, c_dc (snd k))) ks);
     sc_ac := table_for (st_ac st) (map (fun k => (fst k, c_ac (snd k))) ks) |}.

Lemma dec_scan P p W H cs mh mv st ks sp ss se body es :
  comps_ok cs mh mv -> st_frame st = Some (frame_of p W H cs) ->
  selects cs ks -> (1 <= length ks <= 4)%nat -> (forall k, In k ks -> In (snd k) cs) ->
  spectral sp = (ss, se) -> 0 <= ss < 256 -> 0 <= se < 256 ->
  spectral_ok p (length ks) ss se = true ->
  (length ks = 1%nat \/ fold_right Z.add 0 (map (fun k => c_h (snd k) * c_v (snd k)) ks) <= 10) ->
  (forall k, In k ks -> is_some (slot (st_qt st) (c_qt (snd k))) = true) ->
  (ss = 0 -> forall k, In k ks -> is_some (slot (st_dc st) (c_dc (snd k))) = true) ->
  (se <> 0 -> forall k, In k ks -> is_some (slot (st_ac st) (c_ac (snd k))) = true) ->
  (ss <> 0 -> forall k, In k ks -> had_dc (st_scans st) (fst k) = true) ->
  (exists o, emits (body (bitw_new P)) o (bitw_new P) /\ bytes_ok o /\
     forall mk rest, mk <> 0 ->
       decode_intervals (scan_of p st ks ss se) (length cs) 0
         (intervals (st_ri st) (scan_mcus (frame_of p W H cs) (map (fun k => (fst k, comp_of (snd k))) ks)))
         (o ++ 255 :: mk :: rest) = Some (es, 255 :: mk :: rest)) ->
  dec (write_scan_header (map snd ks) sp ;;; body (bitw_new P)) (bitw_new P) st
      (add_scan st es {| si_comps := map fst ks; si_ss := ss; si_se := se |}).
Proof.
  intros Hc Hf Hsel Hlen Hin Hsp Hss Hse Hok H10 Hq Hdc Hac Hhad (o & He & Hb & Hd).
  pose proof (comps_small _ _ _ Hc) as Hsm.
  assert (Hks : Forall comp_small (map snd ks)).
  { apply Forall_forall. intros c Hc'. apply in_map_iff in Hc' as (k & <- & Hk).
    rewrite Forall_forall in Hsm. now apply Hsm, Hin. }
  assert (Elen : length (map snd ks) = length ks) by apply map_length.
  set (pay := sos_payload (map snd ks) ss se).
  assert (Hpl : zlen pay <= 65533).
  { unfold pay, sos_payload, zlen. cbn [length]. rewrite app_length, sel_bytes_length. cbn [length]. lia. }
  assert (Epay : sos_payload (map snd ks) (fst (spectral sp)) (snd (spectral sp)) = pay) by (rewrite Hsp; reflexivity).
  exists (seg 218 pay ++ o). split; [|split; [|split]].
  - eapply emits_bind; [|exact He]. rewrite <- Epay. apply emits_write_sos; [exact Hks|lia].
  - apply bytes_ok_app2; [|exact Hb]. apply seg_bytes_ok; [lia|]. unfold pay, sos_payload.
    constructor; [unfold zlen; lia|]. apply bytes_ok_app2.
    + clear - Hks. induction (map snd ks) as [|c l IH]; [constructor|].
      inversion Hks as [|? ? Hs Hc']; subst. cbn [flat_map sel_bytes app]. unfold comp_small in Hs.
      constructor; [lia|]. constructor; [lia|]. now apply IH.
    + constructor; [lia|]. constructor; [lia|]. constructor; [lia|constructor].
  - right. unfold seg. eexists _, _. split; [reflexivity|]. lia.
  - intros rest stf (mk & r & -> & Hmk) Hp fuel Hfuel.
    destruct fuel as [|fuel]; [unfold seg in Hfuel; rewrite !app_length in Hfuel; cbn in Hfuel; lia|].
    unfold seg. rewrite <- ?app_comm_cons, <- ?app_assoc. cbn [decode_segments].
    change (255 =? 255) with true. cbn [Z.eqb Z.leb Z.compare Pos.eqb Pos.compare Pos.compare_cont andb orb].
    assert (E : decode_scan st (be_bytes 2 (zlen pay + 2) ++ pay ++ o ++ 255 :: mk :: r) =
      Some (add_scan st es {| si_comps := map fst ks; si_ss := ss; si_se := se |}, 255 :: mk :: r)).
    { unfold decode_scan. rewrite Hf. rewrite segment_seg by exact Hpl.
      unfold pay, sos_payload.
      replace ((1 <=? zlen (map snd ks)) && (zlen (map snd ks) <=? 4)) with true by (unfold zlen; lia).
      cbn [frame_of fr_comps fr_progressive]. unfold zlen. rewrite Nat2Z.id, Elen, Hsel.
      assert (E1 : map (fun '(ci, c, _, _) => (ci, c)) (map ksel ks) = map (fun k => (fst k, comp_of (snd k))) ks).
      { rewrite map_map. apply map_ext. now intros []. }
      assert (E2 : map (fun '(ci, _, td, _) => (ci, td)) (map ksel ks) = map (fun k => (fst k, c_dc (snd k))) ks).
      { rewrite map_map. apply map_ext. now intros []. }
      assert (E3 : map (fun '(ci, _, _, ta) => (ci, ta)) (map ksel ks) = map (fun k => (fst k, c_ac (snd k))) ks).
      { rewrite map_map. apply map_ext. now intros []. }
      rewrite E1, E2, E3. rewrite !map_length, Hok. cbn [Z.eqb andb].
      assert (G1 : forallb (fun '(_, _, td, ta) => (td <? 2) && (ta <? 2)) (map ksel ks) = true).
      { apply forallb_forall. intros x Hx. apply in_map_iff in Hx as (k & <- & Hk). cbn [ksel].
        rewrite Forall_forall in Hsm. pose proof (Hsm _ (Hin k Hk)) as Hs. unfold comp_small in Hs.
        unfold ksel. lia. }
      rewrite G1, orb_true_r.
      assert (G2 : (length ks =? 1)%nat || (fold_right Z.add 0
          (map (fun '(_, c) => co_h c * co_v c) (map (fun k => (fst k, comp_of (snd k))) ks)) <=? 10) = true).
      { rewrite map_map. cbn [comp_of co_h co_v]. lia. }
      rewrite G2.
      assert (G3 : forallb (fun '(_, c) => is_some (slot (st_qt st) (co_tq c)))
          (map (fun k => (fst k, comp_of (snd k))) ks) = true).
      { apply forallb_forall. intros x Hx. apply in_map_iff in Hx as (k & <- & Hk). now apply Hq. }
      rewrite G3.
      assert (G4 : negb (ss =? 0) || forallb (fun '(_, d) => is_some (slot (st_dc st) d))
          (map (fun k => (fst k, c_dc (snd k))) ks) = true).
      { destruct (ss =? 0) eqn:E; [cbn [negb orb]|reflexivity].
        apply forallb_forall. intros x Hx. apply in_map_iff in Hx as (k & <- & Hk). apply Hdc; [lia|exact Hk]. }
      rewrite G4.
      assert (G5 : (se =? 0) || forallb (fun '(_, d) => is_some (slot (st_ac st) d))
          (map (fun k => (fst k, c_ac (snd k))) ks) = true).
      { destruct (se =? 0) eqn:E; [reflexivity|cbn [orb]].
        apply forallb_forall. intros x Hx. apply in_map_iff in Hx as (k & <- & Hk). apply Hac; [lia|exact Hk]. }
      rewrite G5.
      assert (G6 : (ss =? 0) || forallb (fun '(ci, _) => had_dc (st_scans st) ci)
          (map (fun k => (fst k, comp_of (snd k))) ks) = true).
      { destruct (ss =? 0) eqn:E; [reflexivity|cbn [orb]].
        apply forallb_forall. intros x Hx. apply in_map_iff in Hx as (k & <- & Hk).
        apply Hhad; [lia|exact Hk]. }
      rewrite G6. fold (scan_of p st ks ss se). rewrite (Hd mk r Hmk).
      unfold add_scan. rewrite Hf. rewrite map_map. cbn [fst]. reflexivity. }
    rewrite E. apply Hp. unfold seg in Hfuel. rewrite !app_length in Hfuel. cbn [length] in *. lia.
Qed.
