(** The structure of a JPEG file at the level of bytes (T.81 Annex B): marker segments with a length
    field, and scans whose entropy-coded data is a sequence of restart intervals.  Specification only. *)
From Coq Require Import ZArith List Bool.
From Verif Require Import T81.
Import ListNotations.
Open Scope Z_scope.

(** Entropy-coded bytes with a zero byte stuffed after every 255 (F.1.2.3). *)
Definition stuffed (data : list Z) : list Z := flat_map (fun b => if b =? 255 then [255; 0] else [b]) data.

(** Restart intervals separated by RSTm, RSTm+1, ... modulo 8. *)
Fixpoint coded_data (m : Z) (intervals : list (list Z)) : list Z :=
  match intervals with
  | [] => []
  | [d] => stuffed d
  | d :: rest => stuffed d ++ [255; 208 + m mod 8] ++ coded_data (m + 1) rest
  end.

Inductive part :=
| Segment (marker : Z) (payload : list Z)
| Scan (header : list Z) (intervals : list (list Z)).

Definition length_field (p : list Z) : list Z :=
  [(Z.of_nat (length p) + 2) / 256; (Z.of_nat (length p) + 2) mod 256].
Definition render (p : part) : list Z :=
  match p with
  | Segment m p => [255; m] ++ length_field p ++ p
  | Scan h ds => [255; 218] ++ length_field h ++ h ++ coded_data 0 ds
  end.
Definition render_file (ps : list part) : list Z := [255; 216] ++ flat_map render ps ++ [255; 217].

Definition scans (ps : list part) : list (list Z * list (list Z)) :=
  flat_map (fun p => match p with Scan h ds => [(h, ds)] | _ => [] end) ps.
Definition dri_segments (ps : list part) : list (list Z) :=
  flat_map (fun p => match p with Segment m d => if m =? 221 then [d] else [] | _ => [] end) ps.
Definition app_segments (ps : list part) : list (Z * list Z) :=
  flat_map (fun p => match p with
                     | Segment m d => if (224 <=? m) && (m <=? 239) then [(m - 224, d)] else []
                     | _ => []
                     end) ps.

(** The number of MCUs of a scan: data units for a single component, interleaved MCUs otherwise. *)
Definition mcu_count (f : frame) (si : scan_info) : Z :=
  match si_comps si with
  | [ci] => match nth_error (fr_comps f) ci with Some c => blocks_wide f c * blocks_high f c | None => 0 end
  | _ => mcus_wide f * mcus_high f
  end.
(** The MCUs of a scan, in order (A.2). *)
Definition mcus_of (f : frame) (si : scan_info) : list (list unit_pos) :=
  scan_mcus f (flat_map (fun ci => match nth_error (fr_comps f) ci with Some c => [(ci, c)] | None => [] end)
                        (si_comps si)).
(** The number of restart intervals of [n] MCUs. *)
Definition interval_count (ri n : Z) : Z := if ri =? 0 then 1 else cdiv n ri.

(** The bits of an interval: data units decoded with all predictions starting from 0, then less than a
    byte of 1-bits. *)
Definition interval_bits (sc : scan) (ncomp : nat) (mcus : list (list unit_pos)) (data : list Z) : Prop :=
  exists es preds pad,
    decode_units sc (repeat 0 ncomp, 0) (concat mcus) (bits_of_bytes data) = Some (es, (preds, 0), pad) /\
    (length pad < 8)%nat /\ Forall (fun b => b = true) pad.

(** Bytes in which every 255 is followed by a stuffed zero or is the start of a restart marker. *)
Fixpoint no_stray_marker (l : list Z) : bool :=
  match l with
  | [] => true
  | b :: l' =>
    (if b =? 255 then match l' with b' :: _ => (b' =? 0) || ((208 <=? b') && (b' <=? 215)) | [] => false end
     else true) && no_stray_marker l'
  end.
