(** The decoder of T81.v on a file given by its parts (SFile.v): it can be run part by part. *)
From Coq Require Import ZArith List Bool Lia ZifyBool ZifyNat.
From Verif Require Import T81 SFile PParts.
Import ListNotations.
Open Scope Z_scope.
Local Ltac Zify.zify_post_hook ::= Z.div_mod_to_equations.

Lemma entropy_stuffed d mk rest : mk <> 0 ->
  entropy_bytes (stuffed d ++ 255 :: mk :: rest) = Some (d, 255 :: mk :: rest).
Proof.
  intros Hm. induction d as [|b d IH].
  - cbn [stuffed flat_map app entropy_bytes]. change (255 =? 255) with true. cbv iota.
    replace (mk =? 0) with false by lia. reflexivity.
  - cbn [stuffed flat_map]. destruct (b =? 255) eqn:E.
    + cbn [app entropy_bytes]. change (255 =? 255) with true. change (0 =? 0) with true. cbv iota.
      change (flat_map (fun b0 => if b0 =? 255 then [255; 0] else [b0]) d) with (stuffed d).
      rewrite IH. assert (b = 255) as -> by lia. reflexivity.
    + cbn [app entropy_bytes]. rewrite E. 
      change (flat_map (fun b0 => if b0 =? 255 then [255; 0] else [b0]) d) with (stuffed d).
      rewrite IH. reflexivity.
Qed.

(** One interval, and all intervals of a scan, from their unstuffed bytes. *)
Definition read_interval (sc : scan) (n : nat) (i : list (list unit_pos)) (d : list Z) : option (list entry) :=
  do (es, st, pad) <- decode_units sc (repeat 0 n, 0) (concat i) (bits_of_bytes d);
  guard ((snd st =? 0) && (length pad <? 8)%nat && forallb (fun b => b) pad);
  Some es.
Fixpoint read_intervals (sc : scan) (n : nat) (ints : list (list (list unit_pos))) (ds : list (list Z)) : option (list entry) :=
  match ints, ds with
  | [i], [d] => read_interval sc n i d
  | i :: ints', d :: ds' =>
    do es <- read_interval sc n i d; do es' <- read_intervals sc n ints' ds'; Some (es ++ es')
  | _, _ => None
  end.

Lemma decode_interval_eq sc n i d mk rest : mk <> 0 ->
  decode_interval sc n i (stuffed d ++ 255 :: mk :: rest)
  = do es <- read_interval sc n i d; Some (es, 255 :: mk :: rest).
Proof.
  intros Hm. unfold decode_interval, read_interval. rewrite entropy_stuffed by exact Hm.
  destruct (decode_units _ _ _ _) as [[[es st] pad]|]; [|reflexivity].
  destruct ((snd st =? 0) && (length pad <? 8)%nat && forallb (fun b => b) pad); reflexivity.
Qed.

Definition is_rst (m : Z) : bool := (208 <=? m) && (m <=? 215).
(** Nothing but a restart marker can be left when the numbers of intervals differ. *)
Definition stuck (r : option (list entry * list Z)) : Prop :=
  r = None \/ exists es m rest, r = Some (es, 255 :: m :: rest) /\ is_rst m = true.

Lemma decode_intervals_eq sc n mk rest : mk <> 0 -> is_rst mk = false -> forall ints ds m, ds <> [] ->
  match read_intervals sc n ints ds with
  | Some es => decode_intervals sc n m ints (coded_data m ds ++ 255 :: mk :: rest) = Some (es, 255 :: mk :: rest)
  | None => stuck (decode_intervals sc n m ints (coded_data m ds ++ 255 :: mk :: rest))
  end.
Proof.
  intros Hm Hr. induction ints as [|i ints IH]; intros ds m Hd.
  { cbn. now left. }
  destruct ds as [|d ds]; [contradiction|]. 
  assert (Hrst : is_rst (208 + m mod 8) = true) by (unfold is_rst; lia).
  destruct ints as [|i2 ints], ds as [|d2 ds].
  - cbn [read_intervals decode_intervals coded_data]. rewrite decode_interval_eq by exact Hm.
    destruct (read_interval sc n i d); [reflexivity|now left].
  - change (coded_data m (d :: d2 :: ds)) with (stuffed d ++ [255; 208 + m mod 8] ++ coded_data (m + 1) (d2 :: ds)).
    rewrite <- !app_assoc. cbn [app].
    cbn [decode_intervals]. rewrite decode_interval_eq by (unfold is_rst in Hrst; lia).
    assert (E : read_intervals sc n [i] (d :: d2 :: ds) = None).
    { cbn [read_intervals]. destruct (read_interval sc n i d); reflexivity. }
    rewrite E. destruct (read_interval sc n i d) as [es|]; [|now left].
    right. exists es, (208 + m mod 8), (coded_data (m + 1) (d2 :: ds) ++ 255 :: mk :: rest). split; [reflexivity|exact Hrst].
  - cbn [coded_data]. assert (E : read_intervals sc n (i :: i2 :: ints) [d] = None).
    { cbn [read_intervals]. destruct (read_interval sc n i d); [|reflexivity]. destruct ints; reflexivity. }
    rewrite E. change (decode_intervals sc n m (i :: i2 :: ints)) with (fun bytes => 
      do (es, rest) <- decode_interval sc n i bytes;
      match rest with
      | b1 :: b2 :: rest =>
        guard ((b1 =? 255) && (b2 =? 208 + m mod 8));
        do (es', rest) <- decode_intervals sc n (m + 1) (i2 :: ints) rest;
        Some (es ++ es', rest)
      | _ => None
      end). cbv beta. rewrite decode_interval_eq by exact Hm.
    destruct (read_interval sc n i d) as [es|]; [|now left]. cbv iota beta.
    assert (G : (255 =? 255) && (mk =? 208 + m mod 8) = false) by (unfold is_rst in Hr, Hrst; lia).
    rewrite G. now left.
  - change (coded_data m (d :: d2 :: ds)) with (stuffed d ++ [255; 208 + m mod 8] ++ coded_data (m + 1) (d2 :: ds)).
    rewrite <- !app_assoc. cbn [app].
    change (decode_intervals sc n m (i :: i2 :: ints)) with (fun bytes => 
      do (es, rest) <- decode_interval sc n i bytes;
      match rest with
      | b1 :: b2 :: rest =>
        guard ((b1 =? 255) && (b2 =? 208 + m mod 8));
        do (es', rest) <- decode_intervals sc n (m + 1) (i2 :: ints) rest;
        Some (es ++ es', rest)
      | _ => None
      end). cbv beta. rewrite decode_interval_eq by (unfold is_rst in Hrst; lia).
    change (read_intervals sc n (i :: i2 :: ints) (d :: d2 :: ds)) with
      (do es <- read_interval sc n i d; do es' <- read_intervals sc n (i2 :: ints) (d2 :: ds); Some (es ++ es')).
    destruct (read_interval sc n i d) as [es|]; [|now left].
    rewrite !Z.eqb_refl. cbn [andb].
    specialize (IH (d2 :: ds) (m + 1) ltac:(discriminate)).
    destruct (read_intervals sc n (i2 :: ints) (d2 :: ds)) as [es'|].
    + rewrite IH. reflexivity.
    + destruct IH as [IH|(es' & m' & r' & IH & Hm')]; rewrite IH; [now left|].
      right. exists (es ++ es'), m', r'. auto.
Qed.

(** ** The decoder, part by part *)
Definition step_scan (st : state) (p : list Z) (ds : list (list Z)) : option state :=
  do f <- st_frame st;
  match p with
  | ns :: p' =>
    guard ((1 <=? ns) && (ns <=? 4));
    do (sel, p'') <- parse_selectors (Z.to_nat ns) 0 (fr_comps f) p';
    match p'' with
    | [ss; se; ahal] =>
      let cs := map (fun '(ci, c, _, _) => (ci, c)) sel in
      let dcs := map (fun '(ci, _, td, _) => (ci, td)) sel in
      let acs := map (fun '(ci, _, _, ta) => (ci, ta)) sel in
      guard ((ahal =? 0) && spectral_ok (fr_progressive f) (length cs) ss se);
      guard (fr_progressive f || forallb (fun '(_, _, td, ta) => (td <? 2) && (ta <? 2)) sel);
      guard ((length cs =? 1)%nat || (fold_right Z.add 0 (map (fun '(_, c) => co_h c * co_v c) cs) <=? 10));
      guard (forallb (fun '(_, c) => is_some (slot (st_qt st) (co_tq c))) cs);
      guard (negb (ss =? 0) || forallb (fun '(_, d) => is_some (slot (st_dc st) d)) dcs);
      guard ((se =? 0) || forallb (fun '(_, d) => is_some (slot (st_ac st) d)) acs);
      guard ((ss =? 0) || forallb (fun '(ci, _) => had_dc (st_scans st) ci) cs);
      let sc := {| sc_progressive := fr_progressive f; sc_ss := ss; sc_se := se;
                   sc_dc := table_for (st_dc st) dcs; sc_ac := table_for (st_ac st) acs |} in
      do es <- read_intervals sc (length (fr_comps f)) (intervals (st_ri st) (scan_mcus f cs)) ds;
      Some {| st_frame := st_frame st; st_qt := st_qt st; st_dc := st_dc st; st_ac := st_ac st;
              st_ri := st_ri st; st_app := st_app st; st_log := st_log st ++ es;
              st_scans := st_scans st ++ [{| si_comps := map fst cs; si_ss := ss; si_se := se |}] |}
    | _ => None
    end
  | [] => None
  end.

Definition step (st : state) (p : part) : option state :=
  match p with
  | Scan h ds => step_scan st h ds
  | Segment m p =>
    if (224 <=? m) && (m <=? 239) then
      Some {| st_frame := st_frame st; st_qt := st_qt st; st_dc := st_dc st; st_ac := st_ac st;
              st_ri := st_ri st; st_app := st_app st ++ [(m - 224, p)]; st_log := st_log st; st_scans := st_scans st |}
    else if m =? 219 then
      do qt <- parse_dqt (length p) p (st_qt st);
      Some {| st_frame := st_frame st; st_qt := qt; st_dc := st_dc st; st_ac := st_ac st;
              st_ri := st_ri st; st_app := st_app st; st_log := st_log st; st_scans := st_scans st |}
    else if m =? 196 then
      do (dc, ac) <- parse_dht (length p) p (st_dc st) (st_ac st);
      Some {| st_frame := st_frame st; st_qt := st_qt st; st_dc := dc; st_ac := ac;
              st_ri := st_ri st; st_app := st_app st; st_log := st_log st; st_scans := st_scans st |}
    else if (m =? 192) || (m =? 194) then
      do f <- parse_sof (m =? 194) p;
      guard (negb (is_some (st_frame st)));
      Some {| st_frame := Some f; st_qt := st_qt st; st_dc := st_dc st; st_ac := st_ac st;
              st_ri := st_ri st; st_app := st_app st; st_log := st_log st; st_scans := st_scans st |}
    else if m =? 221 then
      match p with
      | [a; b] =>
        guard ((0 <? 256 * a + b) && (st_ri st =? 0) && (length (st_scans st) =? 0)%nat);
        Some {| st_frame := st_frame st; st_qt := st_qt st; st_dc := st_dc st; st_ac := st_ac st;
                st_ri := 256 * a + b; st_app := st_app st; st_log := st_log st; st_scans := st_scans st |}
      | _ => None
      end
    else None
  end.
Fixpoint steps (st : state) (ps : list part) : option state :=
  match ps with [] => Some st | p :: ps' => do st' <- step st p; steps st' ps' end.
Lemma steps_app st ps1 ps2 : steps st (ps1 ++ ps2) = do st' <- steps st ps1; steps st' ps2.
Proof. revert st. induction ps1 as [|p ps1 IH]; intros st; [reflexivity|]. cbn [app steps]. destruct (step st p); [apply IH|reflexivity]. Qed.

(** Parts whose boundaries can be seen. *)
Definition part_ok (p : part) : Prop :=
  match p with
  | Segment m p => 192 <= m <= 239 /\ is_rst m = false /\ m <> 217 /\ m <> 218 /\ Z.of_nat (length p) <= 65533
  | Scan h ds => Z.of_nat (length h) <= 65533 /\ ds <> []
  end.

Lemma take_exact {A} (a b : list A) n : n = length a -> take n (a ++ b) = Some (a, b).
Proof. intros ->. induction a as [|x a IH]; [destruct b; reflexivity|]. cbn [length app take]. rewrite IH. reflexivity. Qed.
Lemma segment_eq p rest : Z.of_nat (length p) <= 65533 -> segment (length_field p ++ p ++ rest) = Some (p, rest).
Proof.
  intros H. unfold length_field. cbn [app segment].
  set (n := Z.of_nat (length p) + 2). assert (E : 256 * (n / 256) + n mod 256 = n) by lia. rewrite E.
  replace (2 <=? n) with true by lia. apply take_exact. lia.
Qed.

Lemma render_start p rest : part_ok p -> exists m r, render p ++ rest = 255 :: m :: r /\ m <> 0 /\ is_rst m = false.
Proof.
  destruct p as [m p|h ds]; cbn [render part_ok app]; intros H.
  - exists m, (length_field p ++ p ++ rest). rewrite <- app_assoc. split; [reflexivity|]. split; [lia|tauto].
  - exists 218, ((length_field h ++ h ++ coded_data 0 ds) ++ rest). split; [reflexivity|]. split; [lia|reflexivity].
Qed.
Lemma parts_start ps : Forall part_ok ps ->
  exists m r, flat_map render ps ++ [255; 217] = 255 :: m :: r /\ m <> 0 /\ is_rst m = false.
Proof.
  destruct ps as [|p ps]; intros H.
  - exists 217, []. split; [reflexivity|]. split; [lia|reflexivity].
  - inversion H; subst. cbn [flat_map]. rewrite <- app_assoc. now apply render_start.
Qed.

Lemma decode_scan_eq st h ds mk rest : Z.of_nat (length h) <= 65533 -> ds <> [] -> mk <> 0 -> is_rst mk = false ->
  match step_scan st h ds with
  | Some st' => decode_scan st (length_field h ++ h ++ coded_data 0 ds ++ 255 :: mk :: rest) = Some (st', 255 :: mk :: rest)
  | None => decode_scan st (length_field h ++ h ++ coded_data 0 ds ++ 255 :: mk :: rest) = None \/
            exists st' m r, decode_scan st (length_field h ++ h ++ coded_data 0 ds ++ 255 :: mk :: rest) = Some (st', 255 :: m :: r) /\ is_rst m = true
  end.
Proof.
  intros Hh Hd Hm Hr. unfold step_scan, decode_scan. destruct (st_frame st) as [f|]; [|now left].
  rewrite segment_eq by exact Hh. destruct h as [|ns p']; [now left|].
  destruct ((1 <=? ns) && (ns <=? 4)); [|now left].
  destruct (parse_selectors (Z.to_nat ns) 0 (fr_comps f) p') as [[sel p'']|]; [|now left].
  destruct p'' as [|ss [|se [|ahal [|? ?]]]]; try now left.
  cbv zeta.
  repeat match goal with
  | |- match (if ?b then _ else _) with _ => _ end => destruct b; [|now left]
  end.
  match goal with |- context [read_intervals ?sc ?n ?ints ds] =>
    pose proof (decode_intervals_eq sc n mk rest Hm Hr ints ds 0 Hd) as H; destruct (read_intervals sc n ints ds) as [es|] end.
  - rewrite H. reflexivity.
  - destruct H as [H|(es & m & r & H & Hm')]; rewrite H; [now left|]. right. do 3 eexists. split; [reflexivity|exact Hm'].
Qed.

Lemma stuck_segments fuel st m r : is_rst m = true -> decode_segments fuel st (255 :: m :: r) = None.
Proof.
  unfold is_rst. intros H. destruct fuel as [|fuel]; [reflexivity|]. cbn [decode_segments].
  change (255 =? 255) with true. cbv iota.
  replace (m =? 217) with false by lia. replace (m =? 218) with false by lia.
  replace ((224 <=? m) && (m <=? 239)) with false by lia. replace (m =? 219) with false by lia.
  replace (m =? 196) with false by lia. replace ((m =? 192) || (m =? 194)) with false by lia.
  replace (m =? 221) with false by lia. reflexivity.
Qed.

Lemma steps_eq : forall ps fuel st, Forall part_ok ps -> (length ps < fuel)%nat ->
  decode_segments fuel st (flat_map render ps ++ [255; 217]) = steps st ps.
Proof.
  induction ps as [|p ps IH]; intros fuel st Hok Hf; (destruct fuel as [|fuel]; [cbn in Hf; lia|]).
  - reflexivity.
  - apply Forall_cons_iff in Hok as [Hp Hok]. cbn [length] in Hf. specialize (IH fuel).
    cbn [flat_map steps]. rewrite <- app_assoc. destruct p as [m p|h ds]; cbn [part_ok] in Hp.
    + destruct Hp as (H1 & H2 & H3 & H4 & H5). cbn [render app step]. rewrite <- !app_assoc.
      cbn [decode_segments]. change (255 =? 255) with true. cbv iota.
      replace (m =? 217) with false by lia. replace (m =? 218) with false by lia.
      rewrite segment_eq by exact H5.
      destruct ((224 <=? m) && (m <=? 239)). { apply IH; [exact Hok|lia]. }
      destruct (m =? 219). { destruct (parse_dqt (length p) p (st_qt st)); [apply IH; [exact Hok|lia]|reflexivity]. }
      destruct (m =? 196). { destruct (parse_dht (length p) p (st_dc st) (st_ac st)) as [[dc ac]|]; [apply IH; [exact Hok|lia]|reflexivity]. }
      destruct ((m =? 192) || (m =? 194)).
      { destruct (parse_sof (m =? 194) p); [|reflexivity]. destruct (negb (is_some (st_frame st))); [apply IH; [exact Hok|lia]|reflexivity]. }
      destruct (m =? 221); [|reflexivity].
      destruct p as [|a [|b [|? ?]]]; try reflexivity.
      destruct ((0 <? 256 * a + b) && (st_ri st =? 0) && (length (st_scans st) =? 0)%nat); [apply IH; [exact Hok|lia]|reflexivity].
    + destruct Hp as [H1 H2]. cbn [render app step]. rewrite <- !app_assoc.
      cbn [decode_segments]. change (255 =? 255) with true. change (218 =? 217) with false. change (218 =? 218) with true. cbv iota.
      destruct (parts_start ps Hok) as (mk & r & E & Hm & Hr). rewrite E.
      pose proof (decode_scan_eq st h ds mk r H1 H2 Hm Hr) as H.
      destruct (step_scan st h ds) as [st'|].
      * rewrite H. rewrite <- E. apply IH; [exact Hok|lia].
      * destruct H as [H|(st' & m' & r' & H & Hm')]; rewrite H; [reflexivity|]. now apply stuck_segments.
Qed.

Theorem decode_parts ps : Forall part_ok ps ->
  decode (render_file ps)
  = guard (forallb is_byte (render_file ps));
    do st <- steps init_state ps; do f <- st_frame st;
    Some {| j_frame := f; j_app := st_app st; j_qt := st_qt st; j_ri := st_ri st; j_log := st_log st; j_scans := st_scans st |}.
Proof.
  intros Hok. unfold decode. destruct (forallb is_byte (render_file ps)); [|reflexivity].
  unfold render_file. cbn [app]. change ((255 =? 255) && (216 =? 216)) with true. cbv iota.
  rewrite steps_eq; [reflexivity|exact Hok|].
  rewrite app_length. cbn [length].
  assert (L : (length ps <= length (flat_map render ps))%nat).
  { clear. induction ps as [|p ps IH]; [cbn; lia|]. cbn [flat_map length]. rewrite app_length.
    destruct p; cbn [render app length]; lia. }
  lia.
Qed.
