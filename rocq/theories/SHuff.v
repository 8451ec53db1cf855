(** What a valid Huffman code is (T.81 Annex C).  Specification only. *)
From Coq Require Import ZArith List Bool.
From Verif Require Import T81 STables MApi SApi SImage MImage.
Import ListNotations.
Open Scope Z_scope.

(** The table [bits], [vals] (number of codes of each length, symbols in the order of their codes) is
    accepted by a decoder, and [lookup] (symbol to code length and code) is its code: canonical, lengths
    1..16, no code word of only 1-bits, no code word the beginning of another one. *)
Record good_code (bits vals : list Z) (lookup : Z -> option (Z * Z)) : Prop := {
  gc_table : exists tb, build_table bits vals = Some tb /\
    forall v n c, In v vals -> lookup v = Some (n, c) -> In (bits_of (Z.to_nat n) c, v) tb;
  gc_words : forall v, In v vals -> exists n c, lookup v = Some (n, c) /\ 1 <= n <= 16 /\ 0 <= c < 2 ^ n - 1;
  gc_prefix : forall v1 v2 n1 c1 n2 c2 rest, In v1 vals -> In v2 vals -> v1 <> v2 ->
    lookup v1 = Some (n1, c1) -> lookup v2 = Some (n2, c2) ->
    bits_of (Z.to_nat n1) c1 ++ rest <> bits_of (Z.to_nat n2) c2
}.

(** ** Histograms.  Entry [s] counts symbol [s] (a byte); entry 256 is the reserved symbol of T.81
    Annex K.2, which keeps the all-ones code word free. *)
Definition occurs (hist : list Z) (v : Z) : Prop := 0 <= v < 256 /\ 0 < nth (Z.to_nat v) hist 0.
Definition symbol_count (hist : list Z) : nat := length (filter (Z.ltb 0) hist).
Definition total_count (hist : list Z) : Z := fold_right Z.add 0 hist.
Record histogram (hist : list Z) : Prop := {
  hi_length : length hist = 257%nat;
  hi_counts : Forall (fun n => 0 <= n < 2 ^ 32) hist;
  hi_reserved : nth 256 hist 0 = 1;
  hi_used : exists v, occurs hist v
}.

(** ** Configurations with optimized Huffman tables *)
(** The number of data units of an image (A.1.1, A.2.2). *)
Definition block_count (f : frame) : Z :=
  fold_right Z.add 0 (map (fun c => blocks_wide f c * blocks_high f c) (fr_comps f)).
(** Optimized tables, 8-bit quantizers, at most 33 scans. *)
Record opt_config (quality : Z) (calls : list call) : Prop := {
  oc_calls : Forall call_wf calls;
  oc_luma : table_8bit (s_luma (settings_of quality calls));
  oc_chroma : table_8bit (s_chroma (settings_of quality calls));
  oc_huffman : s_optimize (settings_of quality calls) = true;
  oc_scans : match s_scans (settings_of quality calls) with Some n => n <= 33 | None => True end
}.
(** Optimized tables, anything else as the caller likes. *)
Record opt_any (quality : Z) (calls : list call) : Prop := {
  oa_calls : Forall call_wf calls;
  oa_huffman : s_optimize (settings_of quality calls) = true
}.
(** At most 146,467 data units: 63 AC symbols each and the reserved one stay below 9,227,465. *)
Definition few_blocks (s : settings) (color : jcolor) (w h : Z) : Prop :=
  63 * block_count (frame_for s color w h) + 1 < 9227465.
(** At most 68,174,084 data units (an 8-bit grey image of 65,535 x 65,535 has 67,108,864): no 32-bit
    counter of symbols overflows. *)
Definition countable (s : settings) (color : jcolor) (w h : Z) : Prop :=
  63 * block_count (frame_for s color w h) + 1 < 2 ^ 32.
(** No restart interval, or one so long that no scan has a restart (optimized and progressive scans carry
    one component each). *)
Definition no_restarts (s : settings) (color : jcolor) (w h : Z) : Prop :=
  s_restart s = 0 \/
  Forall (fun c => let f := frame_for s color w h in blocks_wide f c * blocks_high f c <= s_restart s)
         (fr_comps (frame_for s color w h)).

(** ** The price of a table *)
(** The number of bits of code words in an entropy-coded stream with these symbol counts (the extra bits
    following a code word do not depend on the table). *)
Definition code_bits (hist : list Z) (tb : table) : Z :=
  fold_right Z.add 0 (map (fun e => nth (Z.to_nat (snd e)) hist 0 * Z.of_nat (length (fst e))) tb).
Definition longest (tb : table) : Z := fold_right Z.max 0 (map (fun e => Z.of_nat (length (fst e))) tb).
(** A table that can be stored in a file and has a code word for every symbol that occurs. *)
Record alternative (hist counts vals : list Z) (tb : table) : Prop := {
  al_table : build_table counts vals = Some tb;
  al_bytes : Forall (fun v => 0 <= v < 256) vals;
  al_covers : forall v, occurs hist v -> In v vals
}.
