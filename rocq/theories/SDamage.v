(** Damaged entropy-coded data and a decoder that goes on after it (C56).  Specification only. *)
From Coq Require Import ZArith List Bool.
From Verif Require Import T81 SApi SFile.
From Verif Require Import MImage MApi.
Import ListNotations.
Open Scope Z_scope.

(** ** The decoder
    The decoder of T81.v, except that a restart interval whose data cannot be decoded does not end the
    decoding: nothing is known about its data units, and the decoder goes on at the next restart marker. *)
Definition lenient_interval (sc : scan) (ncomp : nat) (mcus : list (list unit_pos)) (bytes : list Z)
  : option (list entry * list Z) :=
  do (data, rest) <- entropy_bytes bytes;
  Some (match decode_units sc (repeat 0 ncomp, 0) (concat mcus) (bits_of_bytes data) with
        | Some (es, _, _) => es
        | None => []
        end, rest).

(** As [decode_intervals]. *)
Fixpoint lenient_intervals (sc : scan) (ncomp : nat) (m : Z) (ints : list (list (list unit_pos)))
  (bytes : list Z) : option (list entry * list Z) :=
  match ints with
  | [] => None
  | [i] => lenient_interval sc ncomp i bytes
  | i :: ints' =>
    do (es, rest) <- lenient_interval sc ncomp i bytes;
    match rest with
    | b1 :: b2 :: rest =>
      guard ((b1 =? 255) && (b2 =? 208 + m mod 8));
      do (es', rest) <- lenient_intervals sc ncomp (m + 1) ints' rest;
      Some (es ++ es', rest)
    | _ => None
    end
  end.

(** As [decode_scan]. *)
Definition lenient_scan (st : state) (l : list Z) : option (state * list Z) :=
  do f <- st_frame st;
  do (p, rest) <- segment l;
  match p with
  | ns :: p' =>
    guard ((1 <=? ns) && (ns <=? 4));
    do (sel, p'') <- parse_selectors (Z.to_nat ns) 0 (fr_comps f) p';
    match p'' with
    | [ss; se; ahal] =>
      let cs := map (fun '(ci, c, _, _) => (ci, c)) sel in
      let dcs := map (fun '(ci, _, td, _) => (ci, td)) sel in
      let acs := map (fun '(ci, _, _, ta) => (ci, ta)) sel in
      guard ((ahal =? 0) && spectral_ok (fr_progressive f) (length cs) ss se);
      (* baseline: table destinations 0 and 1 only *)
      guard (fr_progressive f
             || forallb (fun '(_, _, td, ta) => (td <? 2) && (ta <? 2)) sel);
      (* at most ten data units per MCU *)
      guard ((length cs =? 1)%nat
             || (fold_right Z.add 0 (map (fun '(_, c) => co_h c * co_v c) cs) <=? 10));
      (* all tables present *)
      guard (forallb (fun '(_, c) => is_some (slot (st_qt st) (co_tq c))) cs);
      guard (negb (ss =? 0) || forallb (fun '(_, d) => is_some (slot (st_dc st) d)) dcs);
      guard ((se =? 0) || forallb (fun '(_, d) => is_some (slot (st_ac st) d)) acs);
      (* progressive: the DC scan of a component comes before its AC scans *)
      guard ((ss =? 0) || forallb (fun '(ci, _) => had_dc (st_scans st) ci) cs);
      let sc := {| sc_progressive := fr_progressive f; sc_ss := ss; sc_se := se;
                   sc_dc := table_for (st_dc st) dcs; sc_ac := table_for (st_ac st) acs |} in
      do (es, rest) <- lenient_intervals sc (length (fr_comps f)) 0
                         (intervals (st_ri st) (scan_mcus f cs)) rest;
      Some ({| st_frame := st_frame st; st_qt := st_qt st; st_dc := st_dc st; st_ac := st_ac st;
               st_ri := st_ri st; st_app := st_app st; st_log := st_log st ++ es;
               st_scans := st_scans st ++ [{| si_comps := map fst cs; si_ss := ss; si_se := se |}] |}, rest)
    | _ => None
    end
  | [] => None
  end.

(** As [decode_segments]. *)
Fixpoint lenient_segments (fuel : nat) (st : state) (l : list Z) : option state :=
  match fuel with
  | O => None
  | S fuel' =>
    match l with
    | ff :: m :: l' =>
      guard (ff =? 255);
      if m =? 217 then match l' with [] => Some st | _ => None end            (* EOI *)
      else if m =? 218 then                                                   (* SOS *)
        do (st, l') <- lenient_scan st l';
        lenient_segments fuel' st l'
      else if (224 <=? m) && (m <=? 239) then                                 (* APPn *)
        do (p, l') <- segment l';
        lenient_segments fuel'
          {| st_frame := st_frame st; st_qt := st_qt st; st_dc := st_dc st; st_ac := st_ac st;
             st_ri := st_ri st; st_app := st_app st ++ [(m - 224, p)]; st_log := st_log st;
             st_scans := st_scans st |} l'
      else if m =? 219 then                                                   (* DQT *)
        do (p, l') <- segment l';
        do qt <- parse_dqt (length p) p (st_qt st);
        lenient_segments fuel'
          {| st_frame := st_frame st; st_qt := qt; st_dc := st_dc st; st_ac := st_ac st;
             st_ri := st_ri st; st_app := st_app st; st_log := st_log st;
             st_scans := st_scans st |} l'
      else if m =? 196 then                                                   (* DHT *)
        do (p, l') <- segment l';
        do (dc, ac) <- parse_dht (length p) p (st_dc st) (st_ac st);
        lenient_segments fuel'
          {| st_frame := st_frame st; st_qt := st_qt st; st_dc := dc; st_ac := ac;
             st_ri := st_ri st; st_app := st_app st; st_log := st_log st;
             st_scans := st_scans st |} l'
      else if (m =? 192) || (m =? 194) then                                   (* SOF0, SOF2 *)
        do (p, l') <- segment l';
        do f <- parse_sof (m =? 194) p;
        guard (negb (is_some (st_frame st)));
        lenient_segments fuel'
          {| st_frame := Some f; st_qt := st_qt st; st_dc := st_dc st; st_ac := st_ac st;
             st_ri := st_ri st; st_app := st_app st; st_log := st_log st;
             st_scans := st_scans st |} l'
      else if m =? 221 then                                                   (* DRI *)
        do (p, l') <- segment l';
        match p with
        | [a; b] =>
          (* at most once, before the first scan, and with a nonzero interval *)
          guard ((0 <? 256 * a + b) && (st_ri st =? 0) && (length (st_scans st) =? 0)%nat);
          lenient_segments fuel'
            {| st_frame := st_frame st; st_qt := st_qt st; st_dc := st_dc st; st_ac := st_ac st;
               st_ri := 256 * a + b; st_app := st_app st; st_log := st_log st;
               st_scans := st_scans st |} l'
        | _ => None
        end
      else None
    | _ => None
    end
  end.

(** As [decode]. *)
Definition lenient_decode (l : list Z) : option jpeg :=
  guard (forallb is_byte l);
  match l with
  | ff :: m :: l' =>
    guard ((ff =? 255) && (m =? 216));
    do st <- lenient_segments (length l') init_state l';
    do f <- st_frame st;
    Some {| j_frame := f; j_app := st_app st; j_qt := st_qt st; j_ri := st_ri st;
            j_log := st_log st; j_scans := st_scans st |}
  | _ => None
  end.

(** ** The damage
    The entropy-coded bytes of any restart intervals replaced by any other bytes, more or fewer; headers and
    markers are as before. *)
Definition damaged_part (p p' : part) : Prop :=
  match p, p' with
  | Scan h ds, Scan h' ds' => h' = h /\ length ds' = length ds /\ Forall (Forall (fun b => 0 <= b <= 255)) ds'
  | _, _ => p' = p
  end.
Definition damaged (ps ps' : list part) : Prop := Forall2 damaged_part ps ps'.

(** Interval [i] of scan [n] is not damaged. *)
Definition intact (ps ps' : list part) (n i : nat) : Prop :=
  exists h ds h' ds' d, nth_error (scans ps) n = Some (h, ds) /\ nth_error (scans ps') n = Some (h', ds') /\
    nth_error ds i = Some d /\ nth_error ds' i = Some d.
(** Data unit [u] is coded in interval [i] of scan [si]. *)
Definition coded_in (f : frame) (ri : Z) (si : scan_info) (i : nat) (u : unit_pos) : Prop :=
  exists mcus, nth_error (intervals ri (mcus_of f si)) i = Some mcus /\ In u (concat mcus).

(** Whatever the damage, the decoder comes to the end of the file, finds the same frame, segments, tables and scans,
    and has the same coefficients wherever the interval with the coefficient is intact. *)
Definition contains_damage (ps : list part) (j : jpeg) : Prop :=
  forall ps', damaged ps ps' ->
  exists j', lenient_decode (render_file ps') = Some j' /\
    j_frame j' = j_frame j /\ j_app j' = j_app j /\ j_qt j' = j_qt j /\ j_ri j' = j_ri j /\ j_scans j' = j_scans j /\
    forall n si i ci y x k v, nth_error (j_scans j) n = Some si -> intact ps ps' n i ->
      coded_in (j_frame j) (j_ri j) si i (ci, y, x) -> si_ss si <= k <= si_se si ->
      coef j ci y x k = Some v -> coef j' ci y x k = Some v.

(** ** What a user can rely on
    MCU number [q] (from 0) of a scan is in this restart interval of the scan. *)
Definition interval_number (r : Z) (q : nat) : nat := if r =? 0 then O else Z.to_nat (Z.of_nat q / r).

(** The file with parts [ps]: every scan has one run of entropy-coded bytes for each restart interval, and the
    intervals cover the MCUs.  Whatever happens to some of the runs, the decoder finds the headers, and all the
    right coefficients of every data unit in every MCU in every interval that is not hit. *)
Definition survives (T : transform) (s : settings) (color : jcolor) (w h : Z) (pl : planes) (ps : list part) : Prop :=
  let f := frame_for s color w h in
  Forall2 (fun sc si => length (snd sc) = Z.to_nat (interval_count (s_restart s) (mcu_count f si)))
          (scans ps) (scan_script s color) /\
  forall ps', damaged ps ps' ->
  exists j', lenient_decode (render_file ps') = Some j' /\
    j_frame j' = f /\ j_app j' = apps_for s color /\ j_ri j' = s_restart s /\ j_scans j' = scan_script s color /\
    (forall ci c, nth_error (fr_comps f) ci = Some c ->
      quant j' ci = Some (map (fun '(v, u) => quantizer s (co_tq c) (Z.of_nat (8 * v + u))) zigzag)) /\
    forall n si q mcu ci c y x k,
      nth_error (scan_script s color) n = Some si -> nth_error (mcus_of f si) q = Some mcu -> In (ci, y, x) mcu ->
      intact ps ps' n (interval_number (s_restart s) q) ->
      nth_error (fr_comps f) ci = Some c -> 0 <= y < blocks_high f c -> 0 <= x < blocks_wide f c ->
      si_ss si <= k <= si_se si -> 0 <= k < 64 ->
      coef j' ci y x k = Some (expected T s color pl w h ci c y x k).
