(** Decoding damaged files (C56). *)
From Coq Require Import ZArith List Bool Lia ZifyBool ZifyNat.
From Verif Require Import T81 SFile SDamage PParts PParse PPrefix.
Import ListNotations.
Open Scope Z_scope.
Local Ltac Zify.zify_post_hook ::= Z.div_mod_to_equations.

(** ** Intervals *)
Definition lread1 (sc : scan) (n : nat) (i : list (list unit_pos)) (d : list Z) : list entry :=
  match decode_units sc (repeat 0 n, 0) (concat i) (bits_of_bytes d) with Some (es, _, _) => es | None => [] end.
Fixpoint lread (sc : scan) (n : nat) (ints : list (list (list unit_pos))) (ds : list (list Z)) : list entry :=
  match ints, ds with i :: ints', d :: ds' => lread1 sc n i d ++ lread sc n ints' ds' | _, _ => [] end.

Lemma lenient_interval_eq sc n i d mk rest : mk <> 0 ->
  lenient_interval sc n i (stuffed d ++ 255 :: mk :: rest) = Some (lread1 sc n i d, 255 :: mk :: rest).
Proof. intros Hm. unfold lenient_interval. rewrite entropy_stuffed by exact Hm. reflexivity. Qed.

Lemma lenient_intervals_eq sc n mk rest : mk <> 0 -> forall ints ds m, ds <> [] -> length ds = length ints ->
  lenient_intervals sc n m ints (coded_data m ds ++ 255 :: mk :: rest) = Some (lread sc n ints ds, 255 :: mk :: rest).
Proof.
  intros Hm. induction ints as [|i ints IH]; intros ds m Hd Hl; (destruct ds as [|d ds]; [contradiction|]); [discriminate|].
  destruct ints as [|i2 ints], ds as [|d2 ds]; try discriminate Hl.
  - cbn [lread lenient_intervals coded_data]. rewrite lenient_interval_eq by exact Hm. rewrite app_nil_r. reflexivity.
  - change (coded_data m (d :: d2 :: ds)) with (stuffed d ++ [255; 208 + m mod 8] ++ coded_data (m + 1) (d2 :: ds)).
    rewrite <- !app_assoc. cbn [app].
    change (lenient_intervals sc n m (i :: i2 :: ints)) with (fun bytes => 
      do (es, rest) <- lenient_interval sc n i bytes;
      match rest with
      | b1 :: b2 :: rest =>
        guard ((b1 =? 255) && (b2 =? 208 + m mod 8));
        do (es', rest) <- lenient_intervals sc n (m + 1) (i2 :: ints) rest;
        Some (es ++ es', rest)
      | _ => None
      end). cbv beta. rewrite lenient_interval_eq by lia. rewrite !Z.eqb_refl. cbn [andb].
    rewrite (IH (d2 :: ds) (m + 1)); [reflexivity|discriminate|]. cbn [length] in *. lia.
Qed.

Lemma read_interval_lread sc n i d es : read_interval sc n i d = Some es -> lread1 sc n i d = es.
Proof.
  unfold read_interval, lread1. destruct (decode_units _ _ _ _) as [[[es1 st] pad]|]; [|discriminate].
  destruct (_ && _ && _); [|discriminate]. now intros [= <-].
Qed.
Lemma read_interval_units sc n i d es : read_interval sc n i d = Some es ->
  exists st pad, decode_units sc (repeat 0 n, 0) (concat i) (bits_of_bytes d) = Some (es, st, pad).
Proof.
  unfold read_interval. destruct (decode_units _ _ _ _) as [[[es1 st] pad]|]; [|discriminate].
  destruct (_ && _ && _); [|discriminate]. intros [= <-]. eauto.
Qed.
Lemma read_intervals_cons sc n i ints d ds es : read_intervals sc n (i :: ints) (d :: ds) = Some es ->
  (ints = [] /\ ds = [] /\ read_interval sc n i d = Some es) \/
  exists e1 e2, read_interval sc n i d = Some e1 /\ read_intervals sc n ints ds = Some e2 /\ es = e1 ++ e2.
Proof.
  intros H. destruct ints as [|i2 ints], ds as [|d2 ds].
  - left. split; [reflexivity|]. split; [reflexivity|exact H].
  - cbn [read_intervals] in H. destruct (read_interval sc n i d); discriminate H.
  - right. change (read_intervals sc n (i :: i2 :: ints) [d]) with
      (do es <- read_interval sc n i d; do es' <- read_intervals sc n (i2 :: ints) []; Some (es ++ es')) in H.
    destruct (read_interval sc n i d) as [e1|]; [|discriminate].
    destruct (read_intervals sc n (i2 :: ints) []) as [e2|]; [|discriminate]. exists e1, e2.
    split; [reflexivity|]. split; [reflexivity|congruence].
  - right. change (read_intervals sc n (i :: i2 :: ints) (d :: d2 :: ds)) with
      (do es <- read_interval sc n i d; do es' <- read_intervals sc n (i2 :: ints) (d2 :: ds); Some (es ++ es')) in H.
    destruct (read_interval sc n i d) as [e1|]; [|discriminate].
    destruct (read_intervals sc n (i2 :: ints) (d2 :: ds)) as [e2|]; [|discriminate]. exists e1, e2.
    split; [reflexivity|]. split; [reflexivity|congruence].
Qed.
(** Strict decoding: as many data as intervals, each decodes, and the result is the same. *)
Definition decodes (sc : scan) (n : nat) (i : list (list unit_pos)) (d : list Z) : Prop :=
  exists es st pad, decode_units sc (repeat 0 n, 0) (concat i) (bits_of_bytes d) = Some (es, st, pad).
Lemma read_intervals_lread sc n : forall ints ds es, read_intervals sc n ints ds = Some es ->
  lread sc n ints ds = es /\ Forall2 (decodes sc n) ints ds.
Proof.
  induction ints as [|i ints IH]; intros ds es H; [discriminate|].
  destruct ds as [|d ds]; [destruct ints; discriminate H|].
  apply read_intervals_cons in H as [(-> & -> & H)|(e1 & e2 & H1 & H2 & ->)].
  - destruct (read_interval_units _ _ _ _ _ H) as (st & pad & E). cbn [lread]. rewrite (read_interval_lread _ _ _ _ _ H), app_nil_r.
    split; [reflexivity|]. constructor; [exists es, st, pad; exact E|constructor].
  - destruct (read_interval_units _ _ _ _ _ H1) as (st & pad & E). destruct (IH _ _ H2) as [L F]. cbn [lread].
    rewrite (read_interval_lread _ _ _ _ _ H1), L. split; [reflexivity|]. constructor; [exists e1, st, pad; exact E|exact F].
Qed.

(** ** What a damaged interval can say *)
Definition hit (ci : nat) (y x k : Z) (e : entry) : bool :=
  same_pos (en_pos e) (ci, y, x) && (en_ss e <=? k) && (k <? en_ss e + Z.of_nat (length (en_vals e))).
Definition weak (l l' : list entry) : Prop := forall ci y x k, filter (hit ci y x k) l = [] -> filter (hit ci y x k) l' = [].
Definition kept (e : entry) (l l' : list entry) : Prop :=
  exists a b a' b', l = a ++ e :: b /\ l' = a' ++ e :: b' /\ weak a a' /\ weak b b'.
Lemma weak_refl l : weak l l.
Proof. intros ci y x k H. exact H. Qed.
Lemma weak_nil l : weak l [].
Proof. intros ci y x k H. reflexivity. Qed.
Lemma weak_app a a' b b' : weak a a' -> weak b b' -> weak (a ++ b) (a' ++ b').
Proof.
  intros H1 H2 ci y x k H. rewrite filter_app in *. apply app_eq_nil in H as [Ha Hb].
  rewrite (H1 _ _ _ _ Ha), (H2 _ _ _ _ Hb). reflexivity.
Qed.
Lemma kept_l e a a' b b' : weak a a' -> kept e b b' -> kept e (a ++ b) (a' ++ b').
Proof.
  intros H (x & y & x' & y' & -> & -> & W1 & W2). exists (a ++ x), y, (a' ++ x'), y'.
  rewrite <- !app_assoc. split; [reflexivity|]. split; [reflexivity|]. split; [now apply weak_app|exact W2].
Qed.
Lemma kept_r e a a' b b' : weak b b' -> kept e a a' -> kept e (a ++ b) (a' ++ b').
Proof.
  intros H (x & y & x' & y' & -> & -> & W1 & W2). exists x, (y ++ b), x', (y' ++ b').
  rewrite <- !app_assoc. split; [reflexivity|]. split; [reflexivity|]. split; [exact W1|now apply weak_app].
Qed.
Lemma kept_refl e l : In e l -> kept e l l.
Proof. intros H. apply in_split in H as (a & b & ->). exists a, b, a, b. split; [reflexivity|]. split; [reflexivity|]. split; apply weak_refl. Qed.

Definition key (e : entry) : unit_pos * Z * Z := (en_pos e, en_ss e, Z.of_nat (length (en_vals e))).
Lemma decode_units_keys sc : 0 <= sc_ss sc <= sc_se sc -> forall us st bits es st' rest,
  decode_units sc st us bits = Some (es, st', rest) -> map key es = map (fun u => (u, sc_ss sc, sc_se sc - sc_ss sc + 1)) us.
Proof.
  intros Hs. induction us as [|u us IH]; intros st bits es st' rest H.
  - injection H as <- _ _. reflexivity.
  - cbn [decode_units] in H. destruct (decode_unit sc st u bits) as [[[e st1] b1]|] eqn:E; [|discriminate].
    destruct (decode_units sc st1 us b1) as [[[es1 st2] b2]|] eqn:E1; [|discriminate]. injection H as <- _ _.
    apply decode_unit_shape in E as (A & B & C); [|exact Hs]. cbn [map]. rewrite (IH _ _ _ _ _ E1). unfold key at 1. rewrite A, B, C. reflexivity.
Qed.
Lemma keys_weak l l' : map key l' = map key l -> weak l l'.
Proof.
  revert l'. induction l as [|e l IH]; intros [|e' l'] H; try discriminate H; [apply weak_refl|].
  injection H as H1 H2 H3 H. intros ci y x k. cbn [filter].
  assert (E : hit ci y x k e' = hit ci y x k e) by (unfold hit; rewrite H1, H2; do 3 f_equal; lia). rewrite E.
  destruct (hit ci y x k e); [discriminate|]. apply IH. exact H.
Qed.
Lemma lread1_weak sc n i d d' : 0 <= sc_ss sc <= sc_se sc -> decodes sc n i d -> weak (lread1 sc n i d) (lread1 sc n i d').
Proof.
  intros Hs (es & st & pad & E). unfold lread1. rewrite E.
  destruct (decode_units _ _ _ (bits_of_bytes d')) as [[[es' st'] pad']|] eqn:E'; [|apply weak_nil].
  apply keys_weak. rewrite (decode_units_keys _ Hs _ _ _ _ _ _ E), (decode_units_keys _ Hs _ _ _ _ _ _ E'). reflexivity.
Qed.
Lemma lread_weak sc n : 0 <= sc_ss sc <= sc_se sc -> forall ints ds ds', Forall2 (decodes sc n) ints ds ->
  weak (lread sc n ints ds) (lread sc n ints ds').
Proof.
  intros Hs. induction ints as [|i ints IH]; intros ds ds' H; inversion H; subst; [apply weak_refl|].
  destruct ds' as [|d' ds']; [apply weak_nil|]. cbn [lread]. apply weak_app; [now apply lread1_weak|now apply IH].
Qed.
(** An intact interval keeps its entries. *)
Lemma lread_kept sc n : 0 <= sc_ss sc <= sc_se sc -> forall ints ds ds' k i d u, Forall2 (decodes sc n) ints ds ->
  nth_error ds k = Some d -> nth_error ds' k = Some d -> nth_error ints k = Some i -> In u (concat i) ->
  exists e, key e = (u, sc_ss sc, sc_se sc - sc_ss sc + 1) /\ kept e (lread sc n ints ds) (lread sc n ints ds').
Proof.
  intros Hs. induction ints as [|i0 ints IH]; intros ds ds' k i d u H Hd Hd' Hi Hu; [destruct k; discriminate Hi|].
  inversion H as [|? d0 ? ds0 H1 H2]; subst. destruct ds' as [|d1 ds']; [destruct k; discriminate Hd'|]. cbn [lread].
  destruct k as [|k].
  - cbn [nth_error] in *. injection Hd as ->. injection Hd' as ->. injection Hi as ->.
    destruct H1 as (es & st & pad & E). pose proof (decode_units_keys _ Hs _ _ _ _ _ _ E) as K.
    assert (He : exists e, In e es /\ key e = (u, sc_ss sc, sc_se sc - sc_ss sc + 1)).
    { assert (X : In (u, sc_ss sc, sc_se sc - sc_ss sc + 1) (map key es)).
      { rewrite K. apply in_map_iff. exists u. split; [reflexivity|exact Hu]. }
      apply in_map_iff in X as (e & Ee & He). eauto. }
    destruct He as (e & He & Ek). exists e. split; [exact Ek|]. apply kept_r; [now apply lread_weak|].
    unfold lread1. rewrite E. now apply kept_refl.
  - cbn [nth_error] in *. destruct (IH ds0 ds' k i d u H2 Hd Hd' Hi Hu) as (e & Ek & X). exists e. split; [exact Ek|].
    apply kept_l; [now apply lread1_weak|exact X].
Qed.

(** ** Scans *)
Definition relog (st : state) (l : list entry) : state :=
  {| st_frame := st_frame st; st_qt := st_qt st; st_dc := st_dc st; st_ac := st_ac st;
     st_ri := st_ri st; st_app := st_app st; st_log := l; st_scans := st_scans st |}.

Lemma lenient_scan_eq st h ds st1 ds' l mk rest : step_scan st h ds = Some st1 -> Z.of_nat (length h) <= 65533 -> ds <> [] ->
  length ds' = length ds -> mk <> 0 ->
  exists f sc si, st_frame st = Some f /\ 0 <= si_ss si <= si_se si /\ sc_ss sc = si_ss si /\ sc_se sc = si_se si /\
    let ints := intervals (st_ri st) (mcus_of f si) in let n := length (fr_comps f) in
    Forall2 (decodes sc n) ints ds /\
    st1 = {| st_frame := st_frame st; st_qt := st_qt st; st_dc := st_dc st; st_ac := st_ac st; st_ri := st_ri st;
             st_app := st_app st; st_log := st_log st ++ lread sc n ints ds; st_scans := st_scans st ++ [si] |} /\
    lenient_scan (relog st l) (length_field h ++ h ++ coded_data 0 ds' ++ 255 :: mk :: rest)
    = Some (relog st1 (l ++ lread sc n ints ds'), 255 :: mk :: rest).
Proof.
  intros H Hh Hd Hl Hm. unfold step_scan in H. destruct (st_frame st) as [f|] eqn:Ef; [|discriminate].
  destruct h as [|ns p']; [discriminate|].
  destruct ((1 <=? ns) && (ns <=? 4)) eqn:E1; [|discriminate].
  destruct (parse_selectors (Z.to_nat ns) 0 (fr_comps f) p') as [[sel p'']|] eqn:Esel; [|discriminate].
  destruct p'' as [|ss [|se [|ahal [|? ?]]]]; try discriminate. cbv zeta in H.
  set (cs := map (fun '(ci, c, _, _) => (ci, c)) sel) in *.
  repeat match type of H with
  | (if ?b then _ else _) = _ => let E := fresh "G" in destruct b eqn:E; [|discriminate]
  end.
  match type of H with context [read_intervals ?sc ?n ?ii ds] =>
    set (sc0 := sc) in *; destruct (read_intervals sc0 n ii ds) as [es|] eqn:Er; [|discriminate] end.
  destruct (parse_selectors_inv _ _ _ _ _ _ Esel) as (_ & _ & Hsel).
  assert (Hn : Forall (fun ic : nat * comp => nth_error (fr_comps f) (fst ic) = Some (snd ic)) cs).
  { unfold cs. clear - Hsel. induction Hsel as [|[[[ci c] td] ta] l H Hl IH]; [constructor|].
    cbn [map]. constructor; [|exact IH]. cbn [fst snd]. destruct H as [_ H]. now rewrite Nat.sub_0_r in H. }
  assert (Ecs : flat_map (fun ci => match nth_error (fr_comps f) ci with Some c => [(ci, c)] | None => [] end) (map fst cs) = cs).
  { clear - Hn. induction Hn as [|[ci c] l E Hl IH]; [reflexivity|]. cbn [map flat_map fst]. cbn [fst snd] in E.
    rewrite E, IH. reflexivity. }
  exists f, sc0, {| si_comps := map fst cs; si_ss := ss; si_se := se |}. split; [reflexivity|].
  assert (Hs : 0 <= ss <= se).
  { apply andb_prop in G as [_ G]. now apply spectral_range in G. }
  split; [exact Hs|]. split; [reflexivity|]. split; [reflexivity|]. cbv zeta. unfold mcus_of. cbn [si_comps]. rewrite Ecs.
  destruct (read_intervals_lread _ _ _ _ _ Er) as [El F2]. split; [exact F2|].
  injection H as <-. split; [rewrite El; reflexivity|].
  unfold lenient_scan. cbn [relog st_frame st_qt st_dc st_ac st_ri st_app st_log st_scans]. rewrite Ef.
  rewrite segment_eq by exact Hh. rewrite E1, Esel. cbv zeta. fold cs. rewrite G, G0, G1, G2, G3, G4, G5. fold sc0.
  assert (L : length ds' = length (intervals (st_ri st) (scan_mcus f cs))).
  { rewrite Hl. symmetry. clear - F2. induction F2; cbn [length]; congruence. }
  rewrite (lenient_intervals_eq sc0 _ mk rest Hm _ ds' 0); [reflexivity| |exact L].
  intros ->. cbn [length] in Hl. destruct ds; [contradiction|discriminate].
Qed.

Lemma scans_all ps : Forall is_scan ps -> forall hd ds n, nth_error (scans ps) n = Some (hd, ds) <-> nth_error ps n = Some (Scan hd ds).
Proof.
  induction 1 as [|p ps Hp _ IH]; intros hd ds n; [split; destruct n; discriminate|].
  destruct p as [|h0 d0]; [destruct Hp|]. cbn [scans flat_map app]. destruct n as [|n]; cbn [nth_error].
  - split; intros [= -> ->]; reflexivity.
  - apply IH.
Qed.

(** The scans of a file, one after the other. *)
Lemma lenient_scans : forall ps ps' fuel st st1 l, Forall is_scan ps -> Forall part_ok ps -> damaged ps ps' -> (length ps < fuel)%nat ->
  steps st ps = Some st1 -> weak (st_log st) l ->
  exists l1, lenient_segments fuel (relog st l) (flat_map render ps' ++ [255; 217]) = Some (relog st1 l1) /\
    weak (st_log st1) l1 /\ (forall e, kept e (st_log st) l -> kept e (st_log st1) l1) /\
    st_frame st1 = st_frame st /\ st_ri st1 = st_ri st /\
    exists sis, st_scans st1 = st_scans st ++ sis /\
    forall n si i u f, nth_error sis n = Some si -> intact ps ps' n i -> st_frame st = Some f -> coded_in f (st_ri st) si i u ->
      exists e, key e = (u, si_ss si, si_se si - si_ss si + 1) /\ kept e (st_log st1) l1.
Proof.
  induction ps as [|p ps IH]; intros ps' fuel st st1 l Hsc Hok Hd Hf Hst Hw; (destruct fuel as [|fuel]; [cbn in Hf; lia|]).
  - inversion Hd; subst. injection Hst as <-. exists l. split; [reflexivity|]. split; [exact Hw|]. split; [auto|].
    split; [reflexivity|]. split; [reflexivity|]. exists []. split; [now rewrite app_nil_r|]. intros [|n]; discriminate.
  - apply Forall_cons_iff in Hsc as [Hp Hsc]. apply Forall_cons_iff in Hok as [Ho Hok]. inversion Hd as [|? p' ? ps2 Hd1 Hd2]; subst. clear Hd.
    destruct p as [|h ds]; [destruct Hp|]. destruct p' as [m0 p0|h' ds']; [discriminate Hd1|]. destruct Hd1 as (-> & Hl & _).
    destruct Ho as [Hh Hne]. cbn [steps step] in Hst. destruct (step_scan st h ds) as [st2|] eqn:E; [|discriminate].
    assert (S2 : Forall is_scan ps2).
    { clear - Hd2 Hsc. induction Hd2 as [|p p' l l' H _ IH]; [constructor|]. apply Forall_cons_iff in Hsc as [H1 H2].
      constructor; [|now apply IH]. destruct p, p'; try destruct H1; try discriminate H. exact I. }
    assert (Start : exists mk r, flat_map render ps2 ++ [255; 217] = 255 :: mk :: r /\ mk <> 0).
    { destruct ps2 as [|p2 ps2]; [exists 217, []; split; [reflexivity|lia]|]. apply Forall_cons_iff in S2 as [S2 _].
      destruct p2 as [|h2 d2]; [destruct S2|]. cbn [flat_map render app]. eexists 218, _. split; [reflexivity|lia]. }
    destruct Start as (mk & r & Es & Hm).
    destruct (lenient_scan_eq st h ds st2 ds' l mk r E Hh Hne Hl Hm) as (f & sc & si & Ef & Hs & E1 & E2 & F2 & Est & EL). cbv zeta in F2, Est, EL.
    set (ints := intervals (st_ri st) (mcus_of f si)) in *. set (n := length (fr_comps f)) in *.
    assert (Hs' : 0 <= sc_ss sc <= sc_se sc) by lia.
    assert (W2 : weak (st_log st2) (l ++ lread sc n ints ds')).
    { rewrite Est. cbn [st_log]. apply weak_app; [exact Hw|now apply lread_weak]. }
    destruct (IH ps2 fuel st2 st1 _ Hsc Hok Hd2 ltac:(cbn [length] in Hf; lia) Hst W2) as (l1 & R1 & R2 & R3 & R4 & R5 & sis & R6 & R7).
    exists l1. split; [|split; [exact R2|split; [|split; [|split; [|exists (si :: sis); split]]]]].
    + cbn [flat_map render app]. rewrite <- !app_assoc. cbn [lenient_segments]. change (255 =? 255) with true.
      change (218 =? 217) with false. change (218 =? 218) with true. cbv iota. rewrite Es, EL, <- Es. exact R1.
    + intros e He. apply R3. rewrite Est. cbn [st_log]. apply kept_r; [now apply lread_weak|exact He].
    + rewrite R4, Est. reflexivity.
    + rewrite R5, Est. reflexivity.
    + rewrite R6, Est. cbn [st_scans]. rewrite <- app_assoc. reflexivity.
    + intros k sk i u f' Hk Hi Hf' Hc.
      assert (f' = f) as -> by congruence. destruct k as [|k].
      * injection Hk as <-. destruct Hi as (h1 & d1 & h2 & d2 & d & X1 & X2 & X3 & X4). cbn [scans flat_map app nth_error] in X1, X2.
        injection X1 as <- <-. injection X2 as <- <-. destruct Hc as (mc & Hc & Hu).
        destruct (lread_kept sc n Hs' ints ds ds' i mc d u F2 X3 X4 Hc Hu) as (e & Ke & K). exists e. split; [rewrite Ke, E1, E2; reflexivity|].
        apply R3. rewrite Est. cbn [st_log]. apply kept_l; assumption.
      * cbn [nth_error] in Hk. rewrite <- Ef in Hf'.
        apply (R7 k sk i u f Hk).
        -- destruct Hi as (h1 & d1 & h2 & d2 & d & X1 & X2 & X3 & X4). cbn [scans flat_map app nth_error] in X1, X2.
           exists h1, d1, h2, d2, d. split; [exact X1|]. split; [exact X2|]. split; [exact X3|exact X4].
        -- rewrite Est. cbn [st_frame]. exact Ef.
        -- rewrite Est. cbn [st_ri]. exact Hc.
Qed.

(** The segments before them. *)
Lemma lenient_header : forall ps fuel st st1 rest, Forall (fun p => ~ is_scan p) ps -> Forall part_ok ps -> steps st ps = Some st1 ->
  lenient_segments (length ps + fuel) st (flat_map render ps ++ rest) = lenient_segments fuel st1 rest.
Proof.
  induction ps as [|p ps IH]; intros fuel st st1 rest Hn Hok Hst; [injection Hst as ->; reflexivity|].
  apply Forall_cons_iff in Hok as [Hp Hok]. apply Forall_cons_iff in Hn as [Hn Hns]. destruct p as [m p|h ds]; [|destruct (Hn I)].
  cbn [part_ok] in Hp. destruct Hp as (H1 & H2 & H3 & H4 & H5). cbn [flat_map steps length Nat.add] in *. rewrite <- app_assoc.
  specialize (IH fuel). cbn [render app step] in *. rewrite <- !app_assoc.
  cbn [lenient_segments]. change (255 =? 255) with true. cbv iota.
  replace (m =? 217) with false by lia. replace (m =? 218) with false by lia.
  rewrite segment_eq by exact H5.
  destruct ((224 <=? m) && (m <=? 239)). { now apply IH. }
  destruct (m =? 219). { destruct (parse_dqt (length p) p (st_qt st)); [now apply IH|discriminate]. }
  destruct (m =? 196). { destruct (parse_dht (length p) p (st_dc st) (st_ac st)) as [[dc ac]|]; [now apply IH|discriminate]. }
  destruct ((m =? 192) || (m =? 194)).
  { destruct (parse_sof (m =? 194) p); [|discriminate]. destruct (negb (is_some (st_frame st))); [now apply IH|discriminate]. }
  destruct (m =? 221); [|discriminate].
  destruct p as [|a [|b [|? ?]]]; try discriminate.
  destruct ((0 <? 256 * a + b) && (st_ri st =? 0) && (length (st_scans st) =? 0)%nat); [now apply IH|discriminate].
Qed.

(** ** Bytes *)
Lemma stuffed_bytes d : Forall (fun b => 0 <= b <= 255) d -> forallb is_byte (stuffed d) = true.
Proof.
  unfold stuffed. induction 1 as [|b d Hb _ IH]; [reflexivity|]. cbn [flat_map]. rewrite forallb_app, IH.
  destruct (b =? 255); cbn [forallb]; unfold is_byte; [reflexivity|]. rewrite !andb_true_r. lia.
Qed.
Lemma coded_bytes : forall ds m, Forall (Forall (fun b => 0 <= b <= 255)) ds -> forallb is_byte (coded_data m ds) = true.
Proof.
  induction ds as [|d ds IH]; intros m H; [reflexivity|]. apply Forall_cons_iff in H as [H1 H2].
  destruct ds as [|d2 ds]; [now apply stuffed_bytes|].
  change (coded_data m (d :: d2 :: ds)) with (stuffed d ++ [255; 208 + m mod 8] ++ coded_data (m + 1) (d2 :: ds)).
  rewrite !forallb_app, stuffed_bytes, (IH (m + 1) H2) by exact H1. cbn [forallb]. unfold is_byte. lia.
Qed.
Lemma damaged_bytes ps ps' : damaged ps ps' -> forallb is_byte (flat_map render ps) = true -> forallb is_byte (flat_map render ps') = true.
Proof.
  induction 1 as [|p p' ps ps' H _ IH]; [auto|]. cbn [flat_map]. rewrite !forallb_app. intros B. apply andb_prop in B as [B1 B2].
  rewrite IH by exact B2. rewrite andb_true_r. destruct p as [m p|h ds].
  - destruct p'; cbn [damaged_part] in H; rewrite H; exact B1.
  - destruct p' as [|h' ds']; [discriminate H|]. destruct H as (-> & _ & H). cbn [render] in *. rewrite !forallb_app in *.
    apply andb_prop in B1 as [B0 B1]. apply andb_prop in B1 as [B3 B1]. apply andb_prop in B1 as [B4 _].
    rewrite B0, B3, B4, coded_bytes by exact H. reflexivity.
Qed.

(** ** Any file that decodes *)
Theorem damage_contained hdr scs j : Forall (fun p => ~ is_scan p) hdr -> Forall is_scan scs -> Forall part_ok (hdr ++ scs) ->
  decode (render_file (hdr ++ scs)) = Some j -> contains_damage (hdr ++ scs) j.
Proof.
  intros Hh Hs Hok D ps' Hd. rewrite decode_parts in D by exact Hok.
  destruct (forallb is_byte (render_file (hdr ++ scs))) eqn:B; [|discriminate].
  destruct (steps init_state (hdr ++ scs)) as [st1|] eqn:E; [|discriminate]. destruct (st_frame st1) as [f|] eqn:Ef; [|discriminate].
  injection D as <-. rewrite steps_app in E. destruct (steps init_state hdr) as [st0|] eqn:E0; [|discriminate].
  apply Forall_app in Hok as [Ok1 Ok2].
  apply Forall2_app_inv_l in Hd as (hdr' & scs' & D1 & D2 & ->).
  assert (hdr' = hdr) as ->.
  { clear - D1 Hh. induction D1 as [|p p' l l' H _ IH]; [reflexivity|]. apply Forall_cons_iff in Hh as [H1 H2]. rewrite IH by exact H2.
    destruct p as [m p|h ds]; [|destruct (H1 I)]. destruct p'; f_equal; exact H. }
  destruct (steps_segments _ _ _ Hh E0) as [L0 S0]. cbn [init_state st_log st_scans] in L0, S0.
  assert (Len : forall ps : list part, (length ps <= length (flat_map render ps))%nat).
  { clear. induction ps as [|p ps IH]; [cbn; lia|]. cbn [flat_map length]. rewrite app_length. destruct p; cbn [render app length]; lia. }
  assert (Ls : length scs' = length scs) by (clear - D2; induction D2; cbn [length]; congruence).
  destruct (lenient_scans scs scs' (length (flat_map render (hdr ++ scs') ++ [255; 217]) - length hdr) st0 st1 [] Hs Ok2 D2) as (l1 & R1 & R2 & R3 & R4 & R5 & sis & R6 & R7).
  { rewrite app_length, flat_map_app, app_length. pose proof (Len hdr). pose proof (Len scs'). cbn [length]. lia. }
  { exact E. } { rewrite L0. apply weak_refl. }
  exists {| j_frame := f; j_app := st_app st1; j_qt := st_qt st1; j_ri := st_ri st1; j_log := l1; j_scans := st_scans st1 |}.
  cbn [j_frame j_app j_qt j_ri j_log j_scans]. split; [|do 5 (split; [reflexivity|])].
  - unfold lenient_decode.
    assert (B' : forallb is_byte (render_file (hdr ++ scs')) = true).
    { unfold render_file in *. rewrite !forallb_app in *. apply andb_prop in B as [B0 B]. apply andb_prop in B as [B1 B2].
      rewrite B0, B2, andb_true_r. apply (damaged_bytes (hdr ++ scs)); [|exact B1]. unfold damaged. apply Forall2_app; assumption. }
    rewrite B'. unfold render_file. cbn [app]. change ((255 =? 255) && (216 =? 216)) with true. cbv iota.
    set (len := length (flat_map render (hdr ++ scs') ++ [255; 217])) in *.
    assert (Hl : (len = length hdr + (len - length hdr))%nat).
    { subst len. rewrite app_length, flat_map_app, app_length. pose proof (Len hdr). lia. }
    rewrite Hl. clearbody len. rewrite flat_map_app, <- app_assoc.
    rewrite (lenient_header hdr (len - length hdr) init_state st0 _ Hh Ok1 E0).
    assert (Er : st0 = relog st0 []) by (rewrite <- L0; destruct st0; reflexivity). rewrite Er, R1.
    unfold relog. cbn [st_frame st_app st_qt st_ri st_log st_scans]. rewrite Ef. reflexivity.
  - intros n si i ci y x k v Hn Hi Hc Hk Hv. rewrite R6, S0 in Hn. cbn [app] in Hn.
    assert (Sc : forall l, scans (hdr ++ l) = scans l).
    { intros l. unfold scans. rewrite flat_map_app. assert (Z : flat_map (fun p => match p with Scan h0 ds => [(h0, ds)] | _ => [] end) hdr = []).
      { clear - Hh. induction Hh as [|p l H _ IH]; [reflexivity|]. destruct p; [exact IH|destruct (H I)]. }
      rewrite Z. reflexivity. }
    assert (Hi' : intact scs scs' n i) by (unfold intact in *; rewrite !Sc in Hi; exact Hi).
    rewrite R5 in Hc. rewrite R4 in Ef.
    destruct (R7 n si i (ci, y, x) f Hn Hi' Ef Hc) as (e & Ke & a & b & a' & b' & El & El' & Wa & Wb).
    unfold coef in *. cbn [j_log] in *. fold (hit ci y x k) in *. rewrite El in Hv. rewrite El'.
    assert (He : hit ci y x k e = true).
    { unfold key in Ke. injection Ke as K1 K2 K3. unfold hit. rewrite K1, K2. unfold same_pos. lia. }
    rewrite filter_app in *. cbn [filter] in *. rewrite He in *.
    destruct (filter (hit ci y x k) a) as [|e1 fa] eqn:Fa.
    + rewrite (Wa _ _ _ _ Fa). cbn [app] in *. destruct (filter (hit ci y x k) b) as [|e2 fb] eqn:Fb; [|discriminate].
      rewrite (Wb _ _ _ _ Fb). exact Hv.
    + cbn [app] in Hv. destruct fa; cbn [app] in Hv; discriminate.
Qed.
