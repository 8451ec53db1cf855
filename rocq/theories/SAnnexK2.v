(** Specification: the procedure of T.81 Annex K.2 that makes a Huffman table for given symbol counts (property C70).
    Written with trees and functions; the figures of the standard have arrays of links. *)
From Coq Require Import ZArith List Bool.
From Verif Require Import T81 SFile SEncode SSize SHuff SRestart SApi.
From Verif Require Import MImage MApi.
Import ListNotations.
Open Scope Z_scope.

(** ** Code sizes (Figure K.1)
    Trees over the symbols; each has a weight (the number of occurrences of its symbols) and a label (one of its
    symbols). *)
Inductive tree := Leaf (v : nat) | Node (a b : tree).
Record weighted := { wt : Z; label : nat; shape : tree }.
(** Smaller weight, or equal weight and greater label. *)
Definition precedes (a b : weighted) : bool := (wt a <? wt b) || ((wt a =? wt b) && (label b <? label a)%nat).
(** The first tree in this order, and the other ones. *)
Fixpoint take_first (l : list weighted) : option (weighted * list weighted) :=
  match l with
  | [] => None
  | a :: r => match take_first r with
              | None => Some (a, [])
              | Some (b, r') => if precedes a b then Some (a, r) else Some (b, a :: r')
              end
  end.
(** The first two trees are joined, n times or until one is left. *)
Fixpoint join (n : nat) (l : list weighted) : list weighted :=
  match n with
  | O => l
  | S n' => match take_first l with
            | None => l
            | Some (a, r) => match take_first r with
                             | None => l
                             | Some (b, r') => join n' ({| wt := wt a + wt b; label := label a; shape := Node (shape a) (shape b) |} :: r')
                             end
            end
  end.
(** One tree for each symbol that occurs (257 entries, the last one for the reserved symbol). *)
Definition leaves_of (hist : list Z) : list weighted :=
  flat_map (fun v => if 0 <? nth v hist 0 then [{| wt := nth v hist 0; label := v; shape := Leaf v |}] else []) (seq 0 (length hist)).
Fixpoint depth (t : tree) (v : nat) : option Z :=
  match t with
  | Leaf u => if (u =? v)%nat then Some 0 else None
  | Node a b => match depth a v, depth b v with
                | Some d, _ | None, Some d => Some (d + 1)
                | None, None => None
                end
  end.
(** The depth in the tree that is left; 0 for symbols that do not occur. *)
Definition code_size (hist : list Z) (v : nat) : Z :=
  match join (length hist) (leaves_of hist) with
  | [t] => match depth (shape t) v with Some d => d | None => 0 end
  | _ => 0
  end.

(** ** The number of codes of each size (Figures K.2 and K.3) *)
Definition sizes := nat -> Z.
Definition count_codes (hist : list Z) : sizes := fun k => Z.of_nat (length (filter (fun v => (0 <? code_size hist v) && (code_size hist v =? Z.of_nat k)) (seq 0 257))).
(** The greatest size up to [n] that some code has. *)
Fixpoint greatest (b : sizes) (n : nat) : nat := if 0 <? b n then n else match n with O => O | S n' => greatest b n' end.
(** Two codes of size i: one moves to size i - 1 (the prefix of both); a code of the greatest size j up to i - 2 becomes
    the prefix of two codes of size j + 1, one for itself, the other for the second code. *)
Definition only (k m : nat) (d : Z) : Z := if (k =? m)%nat then d else 0.
Definition move_pair (i : nat) (b : sizes) : sizes :=
  let j := greatest b (i - 2) in
  fun k => b k + only k i (-2) + only k (i - 1) 1 + only k (j + 1) 2 + only k j (-1).
Definition clear_size (b : sizes) (i : nat) : sizes := Nat.iter (Z.to_nat (b i / 2)) (move_pair i) b.
(** No code of more than 16 bits; then one of the longest codes is taken away (for the reserved symbol). *)
Definition limited (b : sizes) : sizes := fold_left clear_size (rev (seq 17 16)) b.
Definition without_reserved (b : sizes) : sizes := let i := greatest b 16 in fun k => b k + only k i (-1).

(** ** The table: BITS and HUFFVAL (Figure K.4: the symbols by code size, then by value) *)
Definition annexK2_table (hist : list Z) : huff :=
  (map (without_reserved (limited (count_codes hist))) (seq 1 16),
   flat_map (fun i => filter (fun v => code_size hist (Z.to_nat v) =? Z.of_nat i) (upto 256)) (seq 1 32)).

(** ** The tables of a file: the symbols are those that the components with the table [d] have
    (for DC, the prediction is never reset while they are counted). *)
Definition histogram_of (symbols : list Z) : list Z :=
  map (fun v => Z.of_nat (length (filter (Z.eqb v) symbols))) (upto 256) ++ [1].
Definition with_table {A} (f : frame) (d : Z) (ci : nat) (l : list A) : list A :=
  match nth_error (fr_comps f) ci with Some c => if co_tq c =? d then l else [] | None => [] end.
Definition dc_symbols_of (cf : coefficients) (f : frame) (d : Z) : list Z :=
  flat_map (fun ci => with_table f d ci (counted_categories cf f ci)) (seq 0 (length (fr_comps f))).
Definition ac_symbols_of (cf : coefficients) (f : frame) (script : list scan_info) (d : Z) : list Z :=
  flat_map (fun si =>
    flat_map (fun '(ci, y, x) => with_table f d ci (ac_symbols 0 (map (cf ci y x) (band (Z.max 1 (si_ss si)) (si_se si)))))
             (concat (mcus_of f si))) script.
Definition optimized_tables (T : transform) (s : settings) (color : jcolor) (pl : planes) (w h : Z) : tables :=
  let f := frame_for s color w h in
  let cf := coefficients_of T s color pl w h in
  {| tb_dc := fun d => annexK2_table (histogram_of (dc_symbols_of cf f d));
     tb_ac := fun d => annexK2_table (histogram_of (ac_symbols_of cf f (scan_script s color) d)) |}.
(** The tables of every file. *)
Definition file_tables (T : transform) (s : settings) (color : jcolor) (pl : planes) (w h : Z) : tables :=
  if s_optimize s then optimized_tables T s color pl w h else annexK_tables.
