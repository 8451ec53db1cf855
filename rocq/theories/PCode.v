(** Tables made by [huffman_new] satisfy [good_code]. *)
From Verif Require Export PHuff SHuff.
From Verif Require Import T81.
From Coq Require Import ZifyBool ZifyNat.

(** The encoder's lookup, as a function. *)
Definition lookup_of (P : platform) (t : htab) (v : Z) : option (Z * Z) :=
  match get_for_value P t v with Ret p => Some p | _ => None end.

Lemma decode_symbol_in tb : forall w v, (forall rest, decode_symbol tb (w ++ rest) = Some (v, rest)) -> In (w, v) tb.
Proof.
  intros w v H. specialize (H []). rewrite app_nil_r in H. revert H.
  induction tb as [|[c s] tb IH]; cbn [decode_symbol]; [discriminate|].
  destruct (strip c w) as [r|] eqn:E.
  - intros [= -> ->]. apply strip_some in E. rewrite app_nil_r in E. subst. now left.
  - intros H. right. now apply IH.
Qed.

Lemma bits_of_inj n a b : 0 <= a < 2 ^ Z.of_nat n -> 0 <= b < 2 ^ Z.of_nat n -> bits_of n a = bits_of n b -> a = b.
Proof. intros Ha Hb H. apply (f_equal value_of) in H. now rewrite !value_of_bits_small in H. Qed.

Lemma table_words lens vals tb w v : build_table lens vals = Some tb -> In (w, v) tb ->
  exists l y, w = bits_of l y /\ (1 <= l <= 16)%nat /\ 0 <= y < 2 ^ Z.of_nat l - 1.
Proof.
  intros Hb Hin. apply build_table_inv in Hb as (Hlen & _ & Hv & _ & ->).
  apply in_combine_l in Hin. apply in_map_iff in Hin as ([l y] & <- & Hin). cbn [fst snd].
  destruct (pairs_bound _ _ _ _ _ Hv ltac:(lia) Hin) as [Hl Hy]. exists l, y. split; [reflexivity|]. lia.
Qed.

Lemma codes_lookup P t tb v : codes t tb v ->
  exists size code, lookup_of P t v = Some (Z.of_nat size, code) /\ (1 <= size <= 16)%nat /\
    0 <= code < 2 ^ Z.of_nat size /\ In (bits_of size code, v) tb /\
    forall rest, decode_symbol tb (bits_of size code ++ rest) = Some (v, rest).
Proof.
  intros (Hv & size & code & Hn & Hs & Hc & Hd). exists size, code.
  split; [|repeat split; try assumption; try lia; now apply decode_symbol_in].
  unfold lookup_of, get_for_value, index. rewrite Hn.
  replace (0 <=? v) with true by lia. cbn [bind fst].
  unfold debug_assert. replace (0 <? Z.of_nat size) with true by lia. cbn [orb].
  destruct (dbg P); reflexivity.
Qed.

Theorem good_code_intro P t lens vals tb : build_table lens vals = Some tb ->
  (forall v, In v vals -> codes t tb v) -> good_code lens vals (lookup_of P t).
Proof.
  intros Hb Hc. constructor.
  - exists tb. split; [exact Hb|]. intros v n c Hin Hl.
    destruct (codes_lookup P t tb v (Hc v Hin)) as (size & code & E & _ & _ & H & _).
    rewrite E in Hl. injection Hl as <- <-. now rewrite Nat2Z.id.
  - intros v Hin. destruct (codes_lookup P t tb v (Hc v Hin)) as (size & code & E & Hs & Hcd & H & _).
    exists (Z.of_nat size), code. split; [exact E|]. split; [lia|].
    destruct (table_words _ _ _ _ _ Hb H) as (l & y & Ew & Hl & Hy).
    assert (size = l) as <-. { apply (f_equal (@length bool)) in Ew. now rewrite !bits_of_length in Ew. }
    apply bits_of_inj in Ew; lia.
  - intros v1 v2 n1 c1 n2 c2 rest H1 H2 Hne L1 L2 E.
    destruct (codes_lookup P t tb v1 (Hc v1 H1)) as (s1 & d1 & E1 & _ & _ & _ & D1).
    destruct (codes_lookup P t tb v2 (Hc v2 H2)) as (s2 & d2 & E2 & _ & _ & _ & D2).
    rewrite E1 in L1. rewrite E2 in L2. injection L1 as <- <-. injection L2 as <- <-.
    rewrite !Nat2Z.id in E. specialize (D2 []). rewrite app_nil_r, <- E, D1 in D2. congruence.
Qed.
