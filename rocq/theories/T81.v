(** A reference decoder for the entropy-coded part of JPEG, written from ITU-T T.81 (sections B, C,
    E, F.2, G.2, A.2).  It is a specification: it shares no definition with the model of the
    encoder.  It covers what the encoder claims to produce: SOF0 (baseline) and SOF2 (progressive
    with spectral selection only), Huffman coding, restart intervals, interleaved and
    non-interleaved scans.  It is deliberately strict: anything outside T.81 (and a few legal things
    no simple writer needs, such as redefining a table) is rejected with [None].

    The result contains everything a decoder needs to reconstruct the image: frame parameters,
    quantization tables, application segments and the quantized coefficients of every block. *)
From Coq Require Import ZArith List Bool.
Import ListNotations.
Open Scope Z_scope.


Notation "'do' x <- m ; k" := (match m with Some x => k | None => None end)
  (at level 200, x pattern, m at level 100, k at level 200).
Notation "'guard' b ; k" := (if b then k else None) (at level 200, b at level 100, k at level 200).

(** ** Bits *)
(** The [n] low bits of [v], most significant first. *)
Fixpoint bits_of (n : nat) (v : Z) : list bool :=
  match n with
  | O => []
  | S n' => Z.testbit v (Z.of_nat n') :: bits_of n' v
  end.
Definition value_of (bs : list bool) : Z := fold_left (fun a b => 2 * a + Z.b2z b) bs 0.
Definition bits_of_bytes (bs : list Z) : list bool := flat_map (bits_of 8) bs.

Fixpoint take {A} (n : nat) (l : list A) : option (list A * list A) :=
  match n, l with
  | O, _ => Some ([], l)
  | S n', x :: l' => do (a, b) <- take n' l'; Some (x :: a, b)
  | S _, [] => None
  end.

(** ** Huffman tables (Annex C) *)
Definition table := list (list bool * Z).

(** Codes of length [L], [L+1], ...; [c] is the first unused code of length [L].  The all-ones code
    of a length must not be used (C.2). *)
Fixpoint canonical_codes (L : nat) (c : Z) (counts : list Z) : option (list (list bool)) :=
  match counts with
  | [] => Some []
  | n :: counts' =>
    guard ((0 <=? n) && ((n =? 0) || (c + n <? 2 ^ Z.of_nat L)));
    do cs <- canonical_codes (S L) (2 * (c + n)) counts';
    Some (map (fun i => bits_of L (c + Z.of_nat i)) (seq 0 (Z.to_nat n)) ++ cs)
  end.

Fixpoint distinct (l : list Z) : bool :=
  match l with
  | [] => true
  | x :: l' => negb (existsb (Z.eqb x) l') && distinct l'
  end.

Definition build_table (counts values : list Z) : option table :=
  guard ((length counts =? 16)%nat && distinct values);
  do cs <- canonical_codes 1 0 counts;
  guard (length cs =? length values)%nat;
  Some (combine cs values).

Fixpoint strip (p l : list bool) : option (list bool) :=
  match p, l with
  | [], _ => Some l
  | x :: p', y :: l' => if Bool.eqb x y then strip p' l' else None
  | _, [] => None
  end.

(** The symbol whose code is a prefix of the bits. *)
Fixpoint decode_symbol (t : table) (bits : list bool) : option (Z * list bool) :=
  match t with
  | [] => None
  | (code, sym) :: t' =>
    match strip code bits with
    | Some rest => Some (sym, rest)
    | None => decode_symbol t' bits
    end
  end.

(** RECEIVE and EXTEND (F.2.2.1) *)
Definition receive_extend (s : Z) (bits : list bool) : option (Z * list bool) :=
  do (v, rest) <- take (Z.to_nat s) bits;
  let v := value_of v in
  Some (if (0 <? s) && (v <? 2 ^ (s - 1)) then v - 2 ^ s + 1 else v, rest).

(** ** Blocks (F.2.2, G.2) *)
Definition decode_dc (t : table) (pred : Z) (bits : list bool) : option (Z * list bool) :=
  do (s, bits) <- decode_symbol t bits;
  guard ((0 <=? s) && (s <=? 11));
  do (diff, bits) <- receive_extend s bits;
  Some (pred + diff, bits).

(** AC coefficients k .. se of one block; also returns the EOB run that follows (progressive only).
    Every round consumes at least one coefficient, hence the fuel of 64 in the calls. *)
Fixpoint decode_ac (progressive : bool) (t : table) (fuel : nat) (k se : Z) (bits : list bool)
  : option (list Z * Z * list bool) :=
  match fuel with
  | O => None
  | S fuel' =>
    if se <? k then Some ([], 0, bits)
    else
      do (rs, bits) <- decode_symbol t bits;
      guard ((0 <=? rs) && (rs <? 256));
      let r := rs / 16 in
      let s := rs mod 16 in
      if s =? 0 then
        if r =? 15 then (* ZRL: sixteen zeros, and something must follow *)
          guard (k + 16 <=? se);
          do (vs, run, bits) <- decode_ac progressive t fuel' (k + 16) se bits;
          Some (repeat 0 16 ++ vs, run, bits)
        else if r =? 0 then (* EOB *)
          Some (repeat 0 (Z.to_nat (se - k + 1)), 0, bits)
        else if progressive then (* EOBn *)
          do (e, bits) <- take (Z.to_nat r) bits;
          Some (repeat 0 (Z.to_nat (se - k + 1)), 2 ^ r + value_of e - 1, bits)
        else None
      else
        guard ((s <=? 10) && (k + r <=? se));
        do (v, bits) <- receive_extend s bits;
        do (vs, run, bits) <- decode_ac progressive t fuel' (k + r + 1) se bits;
        Some (repeat 0 (Z.to_nat r) ++ v :: vs, run, bits)
  end.

(** ** Frame and scans *)
Record comp := { co_id : Z; co_h : Z; co_v : Z; co_tq : Z }.
Record frame := { fr_progressive : bool; fr_width : Z; fr_height : Z; fr_comps : list comp }.

(** A data unit: component index (0-based position in the frame), block row, block column. *)
Definition unit_pos := (nat * Z * Z)%type.
(** What a scan says about a data unit: coefficients ss, ss+1, ... (zig-zag order). *)
Record entry := { en_pos : unit_pos; en_ss : Z; en_vals : list Z }.

Definition hmax (f : frame) : Z := fold_right (fun c m => Z.max (co_h c) m) 1 (fr_comps f).
Definition vmax (f : frame) : Z := fold_right (fun c m => Z.max (co_v c) m) 1 (fr_comps f).
Definition cdiv (a b : Z) : Z := (a + b - 1) / b.
Definition upto (n : Z) : list Z := map Z.of_nat (seq 0 (Z.to_nat n)).

(** A.1.1 component dimensions, A.2.2 / A.2.3 block counts *)
Definition comp_width (f : frame) (c : comp) : Z := cdiv (fr_width f * co_h c) (hmax f).
Definition comp_height (f : frame) (c : comp) : Z := cdiv (fr_height f * co_v c) (vmax f).
Definition blocks_wide (f : frame) (c : comp) : Z := cdiv (comp_width f c) 8.
Definition blocks_high (f : frame) (c : comp) : Z := cdiv (comp_height f c) 8.
Definition mcus_wide (f : frame) : Z := cdiv (fr_width f) (8 * hmax f).
Definition mcus_high (f : frame) : Z := cdiv (fr_height f) (8 * vmax f).

(** The MCUs of a scan in order, each a list of data units. *)
Definition single_mcus (f : frame) (ci : nat) (c : comp) : list (list unit_pos) :=
  flat_map (fun y => map (fun x => [(ci, y, x)]) (upto (blocks_wide f c))) (upto (blocks_high f c)).
Definition interleaved_mcus (f : frame) (cs : list (nat * comp)) : list (list unit_pos) :=
  flat_map (fun my =>
    map (fun mx =>
      flat_map (fun '(ci, c) =>
        flat_map (fun v => map (fun h => (ci, my * co_v c + v, mx * co_h c + h)) (upto (co_h c)))
                 (upto (co_v c))) cs)
      (upto (mcus_wide f)))
    (upto (mcus_high f)).
Definition scan_mcus (f : frame) (cs : list (nat * comp)) : list (list unit_pos) :=
  match cs with
  | [(ci, c)] => single_mcus f ci c
  | _ => interleaved_mcus f cs
  end.

(** Parameters of a scan: per component index, its DC and AC table (where needed). *)
Record scan := {
  sc_progressive : bool;
  sc_ss : Z; sc_se : Z;
  sc_dc : nat -> option table;
  sc_ac : nat -> option table
}.

Fixpoint set_nth {A} (l : list A) (n : nat) (v : A) : list A :=
  match l, n with
  | [], _ => []
  | _ :: l', O => v :: l'
  | x :: l', S n' => x :: set_nth l' n' v
  end.

(** Decoder state inside an interval: DC predictions and pending EOB run. *)
Definition dstate := (list Z * Z)%type.

Definition decode_unit (sc : scan) (st : dstate) (u : unit_pos) (bits : list bool)
  : option (entry * dstate * list bool) :=
  let '(ci, _, _) := u in
  let '(preds, run) := st in
  if sc_ss sc =? 0 then
    do t <- sc_dc sc ci;
    do p <- nth_error preds ci;
    do (dc, bits) <- decode_dc t p bits;
    let preds := set_nth preds ci dc in
    if sc_se sc =? 0 then Some ({| en_pos := u; en_ss := 0; en_vals := [dc] |}, (preds, run), bits)
    else
      do t <- sc_ac sc ci;
      do (vs, _, bits) <- decode_ac (sc_progressive sc) t 64 1 (sc_se sc) bits;
      Some ({| en_pos := u; en_ss := 0; en_vals := dc :: vs |}, (preds, run), bits)
  else if 0 <? run then
    Some ({| en_pos := u; en_ss := sc_ss sc;
             en_vals := repeat 0 (Z.to_nat (sc_se sc - sc_ss sc + 1)) |}, (preds, run - 1), bits)
  else
    do t <- sc_ac sc ci;
    do (vs, run, bits) <- decode_ac (sc_progressive sc) t 64 (sc_ss sc) (sc_se sc) bits;
    Some ({| en_pos := u; en_ss := sc_ss sc; en_vals := vs |}, (preds, run), bits).

Fixpoint decode_units (sc : scan) (st : dstate) (us : list unit_pos) (bits : list bool)
  : option (list entry * dstate * list bool) :=
  match us with
  | [] => Some ([], st, bits)
  | u :: us' =>
    do (e, st, bits) <- decode_unit sc st u bits;
    do (es, st, bits) <- decode_units sc st us' bits;
    Some (e :: es, st, bits)
  end.

(** Entropy-coded bytes up to the next marker, with stuffed zero bytes removed (B.1.1.5, F.1.2.3);
    the second component starts with the marker. *)
Fixpoint entropy_bytes (l : list Z) : option (list Z * list Z) :=
  match l with
  | [] => None
  | b :: l' =>
    if b =? 255 then
      match l' with
      | [] => None
      | b' :: l'' =>
        if b' =? 0 then do (d, r) <- entropy_bytes l''; Some (255 :: d, r)
        else Some ([], l)
      end
    else do (d, r) <- entropy_bytes l'; Some (b :: d, r)
  end.

(** Restart intervals: groups of [ri] MCUs (all MCUs when there is no restart interval). *)
Fixpoint group {A} (fuel : nat) (n : nat) (l : list A) : list (list A) :=
  match fuel with
  | O => []
  | S fuel' => match l with [] => [] | _ => firstn n l :: group fuel' n (skipn n l) end
  end.
Definition intervals {A} (ri : Z) (mcus : list A) : list (list A) :=
  if ri =? 0 then [mcus] else group (length mcus) (Z.to_nat ri) mcus.

(** One interval: decode all its data units; what is left must be fewer than eight 1-bits. *)
Definition decode_interval (sc : scan) (ncomp : nat) (mcus : list (list unit_pos)) (bytes : list Z)
  : option (list entry * list Z) :=
  do (data, rest) <- entropy_bytes bytes;
  do (es, st, pad) <- decode_units sc (repeat 0 ncomp, 0) (concat mcus) (bits_of_bytes data);
  guard ((snd st =? 0) && (length pad <? 8)%nat && forallb (fun b => b) pad);
  Some (es, rest).

(** Intervals separated by RST0, RST1, ... RST7, RST0, ... (F.1.2.3) *)
Fixpoint decode_intervals (sc : scan) (ncomp : nat) (m : Z) (ints : list (list (list unit_pos)))
  (bytes : list Z) : option (list entry * list Z) :=
  match ints with
  | [] => None
  | [i] => decode_interval sc ncomp i bytes
  | i :: ints' =>
    do (es, rest) <- decode_interval sc ncomp i bytes;
    match rest with
    | b1 :: b2 :: rest =>
      guard ((b1 =? 255) && (b2 =? 208 + m mod 8));
      do (es', rest) <- decode_intervals sc ncomp (m + 1) ints' rest;
      Some (es ++ es', rest)
    | _ => None
    end
  end.

(** ** Marker segments (Annex B) *)
(** A scan that was decoded: its components (positions in the frame) and spectral band. *)
Record scan_info := { si_comps : list nat; si_ss : Z; si_se : Z }.
(** A scan with the DC coefficient of component [ci] was seen. *)
Definition had_dc (scans : list scan_info) (ci : nat) : bool :=
  existsb (fun s => (si_ss s =? 0) && existsb (Nat.eqb ci) (si_comps s)) scans.

Record state := {
  st_frame : option frame;
  st_qt : list (option (list Z));       (* four destinations, zig-zag order *)
  st_dc : list (option table);          (* four destinations *)
  st_ac : list (option table);
  st_ri : Z;
  st_app : list (Z * list Z);           (* APPn segments: (n, payload) *)
  st_log : list entry;                  (* everything decoded so far *)
  st_scans : list scan_info             (* the scans decoded so far *)
}.
Definition init_state : state :=
  {| st_frame := None; st_qt := repeat None 4; st_dc := repeat None 4; st_ac := repeat None 4;
     st_ri := 0; st_app := []; st_log := []; st_scans := [] |}.

(** Two-byte length, then the payload. *)
Definition segment (l : list Z) : option (list Z * list Z) :=
  match l with
  | a :: b :: l' =>
    let n := 256 * a + b in
    guard (2 <=? n); take (Z.to_nat (n - 2)) l'
  | _ => None
  end.

(** B.2.4.1 — quantization tables; Pq = 0 only (8-bit samples); entries must not be zero *)
Fixpoint parse_dqt (fuel : nat) (p : list Z) (qt : list (option (list Z)))
  : option (list (option (list Z))) :=
  match p with
  | [] => Some qt
  | d :: p' =>
    match fuel with
    | O => None
    | S fuel' =>
      guard ((0 <=? d) && (d <? 4));
      do (vs, p'') <- take 64 p';
      guard (forallb (fun v => 0 <? v) vs);
      match nth_error qt (Z.to_nat d) with
      | Some None => parse_dqt fuel' p'' (set_nth qt (Z.to_nat d) (Some vs))
      | _ => None
      end
    end
  end.

(** B.2.4.2 — Huffman tables *)
Fixpoint parse_dht (fuel : nat) (p : list Z) (dc ac : list (option table))
  : option (list (option table) * list (option table)) :=
  match p with
  | [] => Some (dc, ac)
  | tcth :: p' =>
    match fuel with
    | O => None
    | S fuel' =>
      let tc := tcth / 16 in
      let th := tcth mod 16 in
      guard (((tc =? 0) || (tc =? 1)) && (th <? 4));
      do (counts, p') <- take 16 p';
      do (vals, p') <- take (Z.to_nat (fold_right Z.add 0 counts)) p';
      do t <- build_table counts vals;
      match nth_error (if tc =? 0 then dc else ac) (Z.to_nat th) with
      | Some None =>
        if tc =? 0 then parse_dht fuel' p' (set_nth dc (Z.to_nat th) (Some t)) ac
        else parse_dht fuel' p' dc (set_nth ac (Z.to_nat th) (Some t))
      | _ => None
      end
    end
  end.

(** B.2.2 — frame header *)
Fixpoint parse_comps (n : nat) (p : list Z) : option (list comp) :=
  match n, p with
  | O, [] => Some []
  | S n', id :: hv :: tq :: p' =>
    let h := hv / 16 in
    let v := hv mod 16 in
    guard ((1 <=? h) && (h <=? 4) && (1 <=? v) && (v <=? 4) && (tq <? 4));
    do cs <- parse_comps n' p';
    Some ({| co_id := id; co_h := h; co_v := v; co_tq := tq |} :: cs)
  | _, _ => None
  end.
Definition parse_sof (progressive : bool) (p : list Z) : option frame :=
  match p with
  | prec :: y1 :: y0 :: x1 :: x0 :: nf :: p' =>
    guard ((prec =? 8) && (1 <=? nf) && (nf <=? 4));
    do cs <- parse_comps (Z.to_nat nf) p';
    let h := 256 * y1 + y0 in
    let w := 256 * x1 + x0 in
    guard ((1 <=? h) && (1 <=? w) && distinct (map co_id cs));
    Some {| fr_progressive := progressive; fr_width := w; fr_height := h; fr_comps := cs |}
  | _ => None
  end.

(** B.2.3 — scan header: component selectors with table destinations.  The selected components must
    appear in the order of the frame; returns (position in the frame, component, Td, Ta). *)
Fixpoint parse_selectors (n : nat) (pos : nat) (cs : list comp) (p : list Z)
  : option (list (nat * comp * Z * Z) * list Z) :=
  match n with
  | O => Some ([], p)
  | S n' =>
    match p with
    | id :: t :: p' =>
      (fix search pos cs :=
         match cs with
         | [] => None
         | c :: cs' =>
           if co_id c =? id then
             do (sel, p'') <- parse_selectors n' (S pos) cs' p';
             Some ((pos, c, t / 16, t mod 16) :: sel, p'')
           else search (S pos) cs'
         end) pos cs
    | _ => None
    end
  end.

Definition slot {A} (l : list (option A)) (i : Z) : option A :=
  match nth_error l (Z.to_nat i) with Some (Some t) => Some t | _ => None end.

(** The table a component uses in this scan. *)
Fixpoint table_for (slots : list (option table)) (sel : list (nat * Z)) (ci : nat) : option table :=
  match sel with
  | [] => None
  | (ci', d) :: sel' => if (ci' =? ci)%nat then slot slots d else table_for slots sel' ci
  end.

Definition is_some {A} (o : option A) : bool := match o with Some _ => true | None => false end.

(** B.2.3 and G.1.1.1 — which (Ss, Se) are allowed, and DC before AC *)
Definition spectral_ok (progressive : bool) (ncs : nat) (ss se : Z) : bool :=
  if progressive then
    if ss =? 0 then se =? 0
    else (1 <=? ss) && (ss <=? se) && (se <=? 63) && (ncs =? 1)%nat
  else (ss =? 0) && (se =? 63).

(** A scan: header and entropy-coded data; returns the entries and the rest of the file. *)
Definition decode_scan (st : state) (l : list Z) : option (state * list Z) :=
  do f <- st_frame st;
  do (p, rest) <- segment l;
  match p with
  | ns :: p' =>
    guard ((1 <=? ns) && (ns <=? 4));
    do (sel, p'') <- parse_selectors (Z.to_nat ns) 0 (fr_comps f) p';
    match p'' with
    | [ss; se; ahal] =>
      let cs := map (fun '(ci, c, _, _) => (ci, c)) sel in
      let dcs := map (fun '(ci, _, td, _) => (ci, td)) sel in
      let acs := map (fun '(ci, _, _, ta) => (ci, ta)) sel in
      guard ((ahal =? 0) && spectral_ok (fr_progressive f) (length cs) ss se);
      (* baseline: table destinations 0 and 1 only *)
      guard (fr_progressive f
             || forallb (fun '(_, _, td, ta) => (td <? 2) && (ta <? 2)) sel);
      (* at most ten data units per MCU *)
      guard ((length cs =? 1)%nat
             || (fold_right Z.add 0 (map (fun '(_, c) => co_h c * co_v c) cs) <=? 10));
      (* all tables present *)
      guard (forallb (fun '(_, c) => is_some (slot (st_qt st) (co_tq c))) cs);
      guard (negb (ss =? 0) || forallb (fun '(_, d) => is_some (slot (st_dc st) d)) dcs);
      guard ((se =? 0) || forallb (fun '(_, d) => is_some (slot (st_ac st) d)) acs);
      (* progressive: the DC scan of a component comes before its AC scans *)
      guard ((ss =? 0) || forallb (fun '(ci, _) => had_dc (st_scans st) ci) cs);
      let sc := {| sc_progressive := fr_progressive f; sc_ss := ss; sc_se := se;
                   sc_dc := table_for (st_dc st) dcs; sc_ac := table_for (st_ac st) acs |} in
      do (es, rest) <- decode_intervals sc (length (fr_comps f)) 0
                         (intervals (st_ri st) (scan_mcus f cs)) rest;
      Some ({| st_frame := st_frame st; st_qt := st_qt st; st_dc := st_dc st; st_ac := st_ac st;
               st_ri := st_ri st; st_app := st_app st; st_log := st_log st ++ es;
               st_scans := st_scans st ++ [{| si_comps := map fst cs; si_ss := ss; si_se := se |}] |}, rest)
    | _ => None
    end
  | [] => None
  end.

(** The marker loop after SOI, up to EOI, which must be the end of the data. *)
Fixpoint decode_segments (fuel : nat) (st : state) (l : list Z) : option state :=
  match fuel with
  | O => None
  | S fuel' =>
    match l with
    | ff :: m :: l' =>
      guard (ff =? 255);
      if m =? 217 then match l' with [] => Some st | _ => None end            (* EOI *)
      else if m =? 218 then                                                   (* SOS *)
        do (st, l') <- decode_scan st l';
        decode_segments fuel' st l'
      else if (224 <=? m) && (m <=? 239) then                                 (* APPn *)
        do (p, l') <- segment l';
        decode_segments fuel'
          {| st_frame := st_frame st; st_qt := st_qt st; st_dc := st_dc st; st_ac := st_ac st;
             st_ri := st_ri st; st_app := st_app st ++ [(m - 224, p)]; st_log := st_log st;
             st_scans := st_scans st |} l'
      else if m =? 219 then                                                   (* DQT *)
        do (p, l') <- segment l';
        do qt <- parse_dqt (length p) p (st_qt st);
        decode_segments fuel'
          {| st_frame := st_frame st; st_qt := qt; st_dc := st_dc st; st_ac := st_ac st;
             st_ri := st_ri st; st_app := st_app st; st_log := st_log st;
             st_scans := st_scans st |} l'
      else if m =? 196 then                                                   (* DHT *)
        do (p, l') <- segment l';
        do (dc, ac) <- parse_dht (length p) p (st_dc st) (st_ac st);
        decode_segments fuel'
          {| st_frame := st_frame st; st_qt := st_qt st; st_dc := dc; st_ac := ac;
             st_ri := st_ri st; st_app := st_app st; st_log := st_log st;
             st_scans := st_scans st |} l'
      else if (m =? 192) || (m =? 194) then                                   (* SOF0, SOF2 *)
        do (p, l') <- segment l';
        do f <- parse_sof (m =? 194) p;
        guard (negb (is_some (st_frame st)));
        decode_segments fuel'
          {| st_frame := Some f; st_qt := st_qt st; st_dc := st_dc st; st_ac := st_ac st;
             st_ri := st_ri st; st_app := st_app st; st_log := st_log st;
             st_scans := st_scans st |} l'
      else if m =? 221 then                                                   (* DRI *)
        do (p, l') <- segment l';
        match p with
        | [a; b] =>
          (* at most once, before the first scan, and with a nonzero interval *)
          guard ((0 <? 256 * a + b) && (st_ri st =? 0) && (length (st_scans st) =? 0)%nat);
          decode_segments fuel'
            {| st_frame := st_frame st; st_qt := st_qt st; st_dc := st_dc st; st_ac := st_ac st;
               st_ri := 256 * a + b; st_app := st_app st; st_log := st_log st;
               st_scans := st_scans st |} l'
        | _ => None
        end
      else None
    | _ => None
    end
  end.

(** ** Result *)
Record jpeg := {
  j_frame : frame;
  j_app : list (Z * list Z);
  j_qt : list (option (list Z));
  j_ri : Z;
  j_log : list entry;
  j_scans : list scan_info
}.

Definition is_byte (b : Z) : bool := (0 <=? b) && (b <? 256).

(** Decode a whole file: SOI, segments, EOI. *)
Definition decode (l : list Z) : option jpeg :=
  guard (forallb is_byte l);
  match l with
  | ff :: m :: l' =>
    guard ((ff =? 255) && (m =? 216));
    do st <- decode_segments (length l') init_state l';
    do f <- st_frame st;
    Some {| j_frame := f; j_app := st_app st; j_qt := st_qt st; j_ri := st_ri st;
            j_log := st_log st; j_scans := st_scans st |}
  | _ => None
  end.

Definition same_pos (a b : unit_pos) : bool :=
  let '(c1, y1, x1) := a in let '(c2, y2, x2) := b in
  (c1 =? c2)%nat && (y1 =? y2) && (x1 =? x2).

(** The coefficient with zig-zag index [k] of block (y, x) of component [ci]: defined when exactly
    one scan coded it. *)
Definition coef (j : jpeg) (ci : nat) (y x k : Z) : option Z :=
  match filter (fun e => same_pos (en_pos e) (ci, y, x)
                         && (en_ss e <=? k) && (k <? en_ss e + Z.of_nat (length (en_vals e))))
               (j_log j) with
  | [e] => nth_error (en_vals e) (Z.to_nat (k - en_ss e))
  | _ => None
  end.

(** The quantization table of component [ci]. *)
Definition quant (j : jpeg) (ci : nat) : option (list Z) :=
  do c <- nth_error (fr_comps (j_frame j)) ci; slot (j_qt j) (co_tq c).

