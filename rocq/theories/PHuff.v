(** Canonical Huffman codes: the lookup tables of src/huffman.rs:240-288 agree with the code words
    a T.81 decoder builds from the same lengths and values, and the code is prefix free. *)
From Verif Require Export PExec PBits MHuffman.
From Verif Require Import T81.
From Coq Require Import ZifyBool ZifyNat.
Local Ltac Zify.zify_post_hook ::= Z.div_mod_to_equations.

(** [sym] has a code word in [t], and the decoder's table [tb] decodes it. *)
Definition codes (t : htab) (tb : T81.table) (sym : Z) : Prop :=
  0 <= sym < 256 /\ exists size code,
    nth_error (h_lookup t) (Z.to_nat sym) = Some (Z.of_nat size, code) /\
    (1 <= size <= 16)%nat /\ 0 <= code < 2 ^ Z.of_nat size /\
    forall rest, decode_symbol tb (bits_of size code ++ rest) = Some (sym, rest).

(** (length, code) pairs in canonical order *)
Fixpoint pairs (L : nat) (c : Z) (counts : list Z) : list (nat * Z) :=
  match counts with
  | [] => []
  | n :: r => map (fun i => (L, c + Z.of_nat i)) (seq 0 (Z.to_nat n)) ++ pairs (S L) (2 * (c + n)) r
  end.

Inductive valid : nat -> Z -> list Z -> Prop :=
| valid_nil L c : valid L c []
| valid_cons L c n r : 0 <= n -> (n = 0 \/ c + n < 2 ^ Z.of_nat L) ->
    valid (S L) (2 * (c + n)) r -> valid L c (n :: r).

Lemma canonical_codes_pairs counts : forall L c cs,
  canonical_codes L c counts = Some cs ->
  valid L c counts /\ cs = map (fun p => bits_of (fst p) (snd p)) (pairs L c counts).
Proof.
  induction counts as [|n r IH]; intros L c cs; cbn [canonical_codes pairs].
  - intros [= <-]. split; [constructor|reflexivity].
  - destruct (_ && _) eqn:E; [|discriminate].
    destruct (canonical_codes (S L) (2 * (c + n)) r) as [cs'|] eqn:E2; [|discriminate].
    intros [= <-]. destruct (IH _ _ _ E2) as [Hv ->]. split.
    + constructor; [lia|lia|assumption].
    + rewrite map_app, map_map. reflexivity.
Qed.

Lemma canonical_codes_valid counts : forall L c,
  valid L c counts ->
  canonical_codes L c counts = Some (map (fun p => bits_of (fst p) (snd p)) (pairs L c counts)).
Proof.
  induction counts as [|n r IH]; intros L c Hv; cbn [canonical_codes pairs]; [reflexivity|].
  inversion Hv; subst. destruct (_ && _) eqn:E; [|lia].
  rewrite (IH _ _ H5). now rewrite map_app, map_map.
Qed.

(** ** Prefix freedom *)
Lemma strip_refl a rest : strip a (a ++ rest) = Some rest.
Proof. induction a as [|b a IH]; cbn; [reflexivity|]. now rewrite eqb_reflx. Qed.

Lemma strip_some p : forall l r, strip p l = Some r -> l = p ++ r.
Proof.
  induction p as [|b p IH]; intros l r; cbn.
  - now intros [= ->].
  - destruct l as [|b' l]; [discriminate|]. destruct (Bool.eqb b b') eqn:E; [|discriminate].
    intros H. apply eqb_prop in E. subst. cbn. f_equal. now apply IH.
Qed.

Lemma value_of_bits_small n v : 0 <= v < 2 ^ Z.of_nat n -> value_of (bits_of n v) = v.
Proof. intros. rewrite value_of_bits_of. now apply Z.mod_small. Qed.

(** A shorter (or equally long) code that is a prefix equals the leading bits. *)
Lemma prefix_value a x b y rest r :
  (a <= b)%nat -> 0 <= x < 2 ^ Z.of_nat a -> 0 <= y < 2 ^ Z.of_nat b ->
  strip (bits_of a x) (bits_of b y ++ rest) = Some r -> x = y / 2 ^ Z.of_nat (b - a).
Proof.
  intros Hab Hx Hy Hs. apply strip_some in Hs.
  replace b with (a + (b - a))%nat in Hs by lia. rewrite bits_of_app in Hs.
  rewrite <- app_assoc in Hs.
  apply (f_equal (firstn a)) in Hs.
  rewrite !firstn_app, !bits_of_length, Nat.sub_diag, !firstn_O, !app_nil_r in Hs.
  rewrite !firstn_all2 in Hs by now rewrite bits_of_length.
  apply (f_equal value_of) in Hs. rewrite !value_of_bits_small in Hs; [now symmetry|lia|].
  split; [apply Z.div_pos; [lia|apply Z.pow_pos_nonneg; lia]|].
  apply Z.div_lt_upper_bound; [apply Z.pow_pos_nonneg; lia|].
  rewrite <- Z.pow_add_r by lia. replace (Z.of_nat (b - a) + Z.of_nat a) with (Z.of_nat b) by lia. lia.
Qed.

(** Every pair at or after level [L] has length >= L and value at least the first unused code. *)
Lemma pairs_bound counts : forall L c l y,
  valid L c counts -> 0 <= c -> In (l, y) (pairs L c counts) ->
  (L <= l < L + length counts)%nat /\ c * 2 ^ Z.of_nat (l - L) <= y < 2 ^ Z.of_nat l - 1 + 0.
Proof.
  induction counts as [|n r IH]; intros L c l y Hv Hc Hin; cbn [pairs] in Hin; [easy|].
  inversion Hv as [|? ? ? ? Hn Hlt Hv']; subst.
  apply in_app_or in Hin as [Hin|Hin].
  - apply in_map_iff in Hin as (i & [= <- <-] & Hi). apply in_seq in Hi.
    cbn [length]. split; [lia|]. rewrite Nat.sub_diag. change (2 ^ Z.of_nat 0) with 1. lia.
  - destruct (IH _ _ _ _ Hv' ltac:(lia) Hin) as [Hl Hy]. cbn [length]. split; [lia|].
    split; [|lia].
    replace (Z.of_nat (l - L)) with (Z.succ (Z.of_nat (l - S L))) by lia.
    rewrite Z.pow_succ_r by lia.
    assert (0 < 2 ^ Z.of_nat (l - S L)) by (apply Z.pow_pos_nonneg; lia). nia.
Qed.

(** Ordered pairs: an earlier code is never a prefix of a later one. *)
Definition before (p q : nat * Z) : Prop :=
  (fst p <= fst q)%nat /\ snd p < snd q / 2 ^ Z.of_nat (fst q - fst p).

Lemma pairs_sorted counts : forall L c,
  valid L c counts -> 0 <= c -> ForallOrdPairs before (pairs L c counts).
Proof.
  induction counts as [|n r IH]; intros L c Hv Hc; cbn [pairs]; [constructor|].
  inversion Hv as [|? ? ? ? Hn Hlt Hv']; subst.
  assert (Hr := IH _ _ Hv' ltac:(lia)).
  assert (G : forall k i0, (i0 + k = Z.to_nat n)%nat ->
    ForallOrdPairs before (map (fun i => (L, c + Z.of_nat i)) (seq i0 k) ++ pairs (S L) (2 * (c + n)) r)).
  { induction k as [|k IHk]; intros i0 Hk; cbn [seq map app]; [exact Hr|].
    constructor; [|apply IHk; lia].
    apply Forall_app. split.
    - apply Forall_forall. intros [l y] Hin. apply in_map_iff in Hin as (i & [= <- <-] & Hi).
      apply in_seq in Hi. split; cbn [fst snd]; [lia|]. rewrite Nat.sub_diag.
      change (2 ^ Z.of_nat 0) with 1. rewrite Z.div_1_r. lia.
    - apply Forall_forall. intros [l y] Hin.
      destruct (pairs_bound _ _ _ _ _ Hv' ltac:(lia) Hin) as [Hl Hy].
      split; cbn [fst snd]; [lia|].
      apply Z.lt_le_trans with (c + n); [lia|].
      apply Z.div_le_lower_bound; [apply Z.pow_pos_nonneg; lia|].
      replace (Z.of_nat (l - L)) with (Z.succ (Z.of_nat (l - S L))) by lia.
      rewrite Z.pow_succ_r by lia. lia. }
  apply (G (Z.to_nat n) 0%nat). lia.
Qed.

Definition pair_ok (p : nat * Z) : Prop :=
  (1 <= fst p <= 16)%nat /\ 0 <= snd p < 2 ^ Z.of_nat (fst p).

Lemma pairs_ok counts : length counts = 16%nat -> valid 1 0 counts ->
  Forall pair_ok (pairs 1 0 counts).
Proof.
  intros Hlen Hv. apply Forall_forall. intros [l y] Hin.
  destruct (pairs_bound _ _ _ _ _ Hv ltac:(lia) Hin) as [Hl Hy]. split; cbn [fst snd]; lia.
Qed.

Lemma decode_symbol_pairs ps : forall vals i l y v rest,
  ForallOrdPairs before ps -> Forall pair_ok ps ->
  nth_error ps i = Some (l, y) -> nth_error vals i = Some v ->
  decode_symbol (combine (map (fun p => bits_of (fst p) (snd p)) ps) vals) (bits_of l y ++ rest)
  = Some (v, rest).
Proof.
  induction ps as [|[l0 y0] ps IH]; intros vals i l y v rest Hord Hok Hp Hv; [now destruct i|].
  destruct vals as [|v0 vals]; [now destruct i|].
  cbn [map combine decode_symbol fst snd].
  inversion Hord as [|? ? Hhd Htl]; subst. inversion Hok as [|? ? Hok0 Hokt]; subst.
  destruct i as [|i]; cbn [nth_error] in Hp, Hv.
  - inversion Hp; inversion Hv; subst. now rewrite strip_refl.
  - destruct (strip (bits_of l0 y0) (bits_of l y ++ rest)) as [r|] eqn:E.
    + exfalso. apply nth_error_In in Hp.
      rewrite Forall_forall in Hhd, Hokt. specialize (Hhd _ Hp). specialize (Hokt _ Hp).
      destruct Hhd as [H1 H2]. destruct Hok0, Hokt. cbn [fst snd] in *.
      apply prefix_value in E; [lia|lia|lia|lia].
    + eapply IH; eassumption.
Qed.

(** ** create_sizes *)
Lemma sizes_pairs_gen counts : forall k L c, (k + 1 = L)%nat ->
  concat (map (fun '(i, n) => repeat (i + 1) (Z.to_nat n))
              (combine (map Z.of_nat (seq k (length counts))) counts))
  = map (fun p => Z.of_nat (fst p)) (pairs L c counts).
Proof.
  induction counts as [|n r IH]; intros k L c Hk; [reflexivity|].
  cbn [length seq map combine concat pairs]. rewrite map_app, map_map. f_equal.
  - cbn [fst]. replace (Z.of_nat k + 1) with (Z.of_nat L) by lia. clear.
    generalize 0%nat. induction (Z.to_nat n) as [|m IHm]; intros s; cbn; [reflexivity|]. f_equal.
    apply IHm.
  - apply IH. lia.
Qed.

Lemma emits_create_sizes counts c :
  (length (pairs 1 c counts) <= 256)%nat ->
  emits (create_sizes counts) []
        (map (fun p => Z.of_nat (fst p)) (pairs 1 c counts)
         ++ repeat 0 (256 - length (pairs 1 c counts))).
Proof.
  intros H. unfold create_sizes, enumerate, zrange, zlen. rewrite Nat2Z.id.
  rewrite (sizes_pairs_gen counts 0 1 c eq_refl), map_length.
  replace (_ <=? 256)%nat with true by lia. apply emits_ret.
Qed.

(** ** create_codes *)
Lemma codes_level P : forall n L i0 c cur csz tail ct,
  (1 <= csz)%nat -> (csz <= L <= 16)%nat -> 0 <= cur ->
  (c + Z.of_nat i0 = cur * 2 ^ Z.of_nat (L - csz)) ->
  (n = O \/ c + Z.of_nat (i0 + n) < 2 ^ Z.of_nat L) ->
  (forall cur' csz', ((n = O /\ cur' = cur /\ csz' = csz) \/
                      (n <> O /\ cur' = c + Z.of_nat (i0 + n) /\ csz' = L)) ->
     emits (create_codes_loop P tail cur' (Z.of_nat csz')) [] ct) ->
  emits (create_codes_loop P (repeat (Z.of_nat L) n ++ tail) cur (Z.of_nat csz)) []
        (map (fun i => c + Z.of_nat i) (seq i0 n) ++ ct).
Proof.
  induction n as [|n IH]; intros L i0 c cur csz tail ct H1 HL Hcur Hc Hb Ht.
  - cbn [repeat app seq map]. apply Ht. left. auto.
  - destruct Hb as [Hb|Hb]; [discriminate|].
    cbn [repeat app seq map create_codes_loop].
    destruct (Z.of_nat L =? 0) eqn:E0; [lia|].
    assert (HP16 : 2 ^ Z.of_nat L <= 2 ^ 16) by (apply Z.pow_le_mono_r; lia).
    assert (0 < 2 ^ Z.of_nat (L - csz)) by (apply Z.pow_pos_nonneg; lia).
    eapply emits_bind0 with (a := (c + Z.of_nat i0, Z.of_nat L)).
    + destruct (Z.of_nat csz =? Z.of_nat L) eqn:E.
      * assert (csz = L) by lia. subst csz. rewrite Nat.sub_diag in Hc.
        change (2 ^ Z.of_nat 0) with 1 in Hc. replace cur with (c + Z.of_nat i0) by lia. apply emits_ret.
      * eapply emits_bind0; [apply emits_ck_u; lia|].
        eapply emits_bind0; [apply emits_shl; lia|].
        replace (Z.of_nat L - Z.of_nat csz) with (Z.of_nat (L - csz)) by lia. rewrite <- Hc.
        rewrite wrap_u_id by nia. apply emits_ret.
    + eapply emits_bind0; [apply emits_ck_u; lia|].
      eapply emits_bind0; [|apply emits_ret].
      apply (IH L (S i0) c (c + Z.of_nat i0 + 1) L tail ct); try lia.
      * rewrite Nat.sub_diag. change (2 ^ Z.of_nat 0) with 1. lia.
      * intros cur' csz' [(-> & -> & ->)|(Hn & -> & ->)]; apply Ht; right; repeat split; lia.
Qed.

Lemma codes_counts P tail : forall counts L c cur csz,
  valid L c counts -> (1 <= csz)%nat -> (csz <= L)%nat -> (L + length counts = 17)%nat ->
  0 <= cur -> c = cur * 2 ^ Z.of_nat (L - csz) ->
  (forall cur' csz', emits (create_codes_loop P tail cur' csz') [] []) ->
  emits (create_codes_loop P (map (fun p => Z.of_nat (fst p)) (pairs L c counts) ++ tail)
           cur (Z.of_nat csz)) [] (map snd (pairs L c counts)).
Proof.
  induction counts as [|n r IH]; intros L c cur csz Hv H1 HL Hlen Hcur Hc Ht; cbn [pairs map app].
  - apply Ht.
  - inversion Hv as [|? ? ? ? Hn Hlt Hv']; subst L0 c0 n0 r0.
    rewrite !map_app, <- app_assoc, !map_map. cbn [fst snd]. cbn [length] in Hlen.
    replace (map (fun _ => Z.of_nat L) (seq 0 (Z.to_nat n))) with (repeat (Z.of_nat L) (Z.to_nat n)).
    2:{ generalize 0%nat. induction (Z.to_nat n) as [|m IHm]; intros s; cbn; [reflexivity|]. f_equal. apply IHm. }
    assert (0 < 2 ^ Z.of_nat (L - csz)) by (apply Z.pow_pos_nonneg; lia).
    apply codes_level; try lia.
    intros cur' csz' [(Hn0 & -> & ->)|(Hn0 & -> & ->)].
    + assert (n = 0) as -> by lia. apply IH; try lia; try assumption.
      rewrite Z.add_0_r, Hc. replace (Z.of_nat (S L - csz)) with (Z.succ (Z.of_nat (L - csz))) by lia.
      rewrite Z.pow_succ_r by lia. ring.
    + apply IH; try lia; try assumption.
      replace (S L - L)%nat with 1%nat by lia. change (2 ^ Z.of_nat 1) with 2. lia.
Qed.

Lemma codes_loop_zeros P k cur csz : emits (create_codes_loop P (repeat 0 k) cur csz) [] [].
Proof. destruct k; apply emits_ret. Qed.

Lemma emits_create_codes P counts :
  valid 1 0 counts -> length counts = 16%nat -> (length (pairs 1 0 counts) <= 256)%nat ->
  emits (create_codes P (map (fun p => Z.of_nat (fst p)) (pairs 1 0 counts)
                         ++ repeat 0 (256 - length (pairs 1 0 counts)))) []
        (map snd (pairs 1 0 counts) ++ repeat 0 (256 - length (pairs 1 0 counts))).
Proof.
  intros Hv Hlen Hle. unfold create_codes.
  eapply emits_bind0.
  - instantiate (1 := map snd (pairs 1 0 counts)).
    set (tail := repeat 0 (256 - length (pairs 1 0 counts))).
    assert (G : emits (create_codes_loop P (map (fun p => Z.of_nat (fst p)) (pairs 1 0 counts) ++ tail)
                         0 (Z.of_nat 1)) [] (map snd (pairs 1 0 counts))).
    { apply codes_counts; try lia; try assumption. intros. apply codes_loop_zeros. }
    assert (Hok := pairs_ok counts Hlen Hv).
    destruct (pairs 1 0 counts) as [|[l y] ps] eqn:Ep.
    + cbn [map app]. apply codes_loop_zeros.
    + cbn [map app fst snd] in *. unfold zn. change (nth (Z.to_nat 0) (?a :: ?b) 0) with a.
      inversion Hok as [|? ? [Hl _] _]; subst. cbn [fst] in Hl.
      cbn [create_codes_loop] in G |- *.
      destruct (Z.of_nat l =? 0) eqn:E0; [lia|]. rewrite Z.eqb_refl.
      destruct (Z.of_nat 1 =? Z.of_nat l) eqn:E.
      * replace (Z.of_nat l) with (Z.of_nat 1) at 1 by lia. exact G.
      * rewrite ck_u_ret in G by lia. cbn [bind] in G.
        apply emits_bind_inv in G as (o1 & a1 & o2 & G1 & G2 & Ho).
        symmetry in Ho. apply app_eq_nil in Ho as [-> ->].
        apply emits_bind_inv in G1 as (o3 & a3 & o4 & G3 & G4 & Ho).
        symmetry in Ho. apply app_eq_nil in Ho as [-> ->].
        destruct (emits_inj _ _ _ _ _ G3 (emits_shl P 16 0 (Z.of_nat l - Z.of_nat 1) ltac:(lia))) as [_ ->].
        inversion G4; subst a1. rewrite wrap_u_id in G2 by lia. cbn [bind]. exact G2.
  - rewrite map_length. apply emits_ret.
Qed.

(** ** create_lookup_table *)
Lemma lookup_fold (sizes codes_ : list Z) : forall vals k lt,
  NoDup vals -> Forall (fun v => 0 <= v < 256) vals -> length lt = 256%nat ->
  (k + length vals <= length sizes)%nat -> (k + length vals <= length codes_)%nat ->
  exists lt', emits (foldM (fun lt '(i, value) =>
             let* s := index sizes i in
             let* c := index codes_ i in
             Ret (upd lt (Z.to_nat value) (s, c)))
          (combine (map Z.of_nat (seq k (length vals))) vals) lt) [] lt' /\
    length lt' = 256%nat /\
    (forall i v, nth_error vals i = Some v ->
       nth_error lt' (Z.to_nat v) = Some (nth (k + i) sizes 0, nth (k + i) codes_ 0)) /\
    (forall v, 0 <= v -> ~ In v vals -> nth_error lt' (Z.to_nat v) = nth_error lt (Z.to_nat v)).
Proof.
  induction vals as [|v vals IH]; intros k lt Hnd Hr Hlt Hs Hc; cbn [length seq map combine foldM].
  - exists lt. split; [apply emits_ret|]. split; [assumption|]. split; [now intros [|i] v|reflexivity].
  - inversion Hnd as [|? ? Hni Hnd']; subst. inversion Hr as [|? ? Hv Hr']; subst.
    cbn [length] in Hs, Hc.
    destruct (IH (S k) (upd lt (Z.to_nat v) (nth k sizes 0, nth k codes_ 0))) as (lt' & He & Hl & Hin & Hout);
      try assumption; try lia.
    { now rewrite upd_length. }
    exists lt'. split; [|split; [assumption|split]].
    + eapply emits_bind0; [|exact He].
      eapply emits_bind0; [apply (emits_index_lt 0); unfold zlen; lia|].
      eapply emits_bind0; [apply (emits_index_lt 0); unfold zlen; lia|].
      rewrite !Nat2Z.id. apply emits_ret.
    + intros [|i] v' Hv'; cbn [nth_error] in Hv'.
      * inversion Hv'; subst v'. rewrite Hout; [|lia|assumption].
        rewrite nth_error_upd. replace (_ && _)%bool with true by lia. now rewrite Nat.add_0_r.
      * rewrite (Hin i v' Hv'). now replace (k + S i)%nat with (S k + i)%nat by lia.
    + intros v' Hv' Hni'. rewrite Hout; [|assumption|intros H; apply Hni'; now right].
      rewrite nth_error_upd.
      replace (_ =? _)%nat with false; [reflexivity|]. symmetry. apply Nat.eqb_neq.
      intros Heq. apply Hni'. left. lia.
Qed.

Lemma distinct_NoDup l : distinct l = true -> NoDup l.
Proof.
  induction l as [|x l IH]; cbn; intros H; [constructor|].
  apply andb_prop in H as [H1 H2]. constructor; [|auto].
  intros Hin. apply negb_true_iff in H1. 
  assert (existsb (Z.eqb x) l = true) by (apply existsb_exists; exists x; split; [assumption|lia]).
  congruence.
Qed.
Lemma NoDup_distinct l : NoDup l -> distinct l = true.
Proof.
  induction 1 as [|x l Hn Hd IH]; cbn; [reflexivity|]. rewrite IH, andb_true_r.
  apply negb_true_iff. destruct (existsb (Z.eqb x) l) eqn:E; [|reflexivity].
  apply existsb_exists in E as (y & Hy & He). exfalso. apply Hn. replace x with y by lia. assumption.
Qed.

Lemma NoDup_bytes_length l : NoDup l -> Forall (fun v => 0 <= v < 256) l -> (length l <= 256)%nat.
Proof.
  intros Hnd Hr. replace 256%nat with (length (zrange 256)) by now rewrite zrange_length.
  apply NoDup_incl_length; [assumption|]. intros v Hv. apply in_zrange.
  rewrite Forall_forall in Hr. now apply Hr.
Qed.

(** Main theorem on tables: if a decoder accepts the lengths and values, then building the encoder's
    table succeeds and every listed value has a code word the decoder understands; all other values
    have the empty entry. *)
Lemma build_table_inv lens vals tb :
  build_table lens vals = Some tb ->
  length lens = 16%nat /\ NoDup vals /\ valid 1 0 lens /\
  length (pairs 1 0 lens) = length vals /\
  tb = combine (map (fun p => bits_of (fst p) (snd p)) (pairs 1 0 lens)) vals.
Proof.
  unfold build_table.
  destruct (_ && _) eqn:E1; [|discriminate].
  destruct (canonical_codes 1 0 lens) as [cs|] eqn:E2; [|discriminate].
  destruct (length cs =? length vals)%nat eqn:E3; [|discriminate]. intros [= <-].
  apply canonical_codes_pairs in E2 as [Hv ->]. rewrite map_length in E3.
  apply andb_prop in E1 as [E1 E1']. apply distinct_NoDup in E1'. repeat split; auto; lia.
Qed.

Theorem huffman_new_codes P lens vals tb :
  build_table lens vals = Some tb -> Forall (fun v => 0 <= v < 256) vals ->
  exists t, emits (huffman_new P lens vals) [] t /\ h_length t = lens /\ h_values t = vals /\
    length (h_lookup t) = 256%nat /\
    (forall v, In v vals -> codes t tb v) /\
    (forall v, 0 <= v < 256 -> ~ In v vals -> nth_error (h_lookup t) (Z.to_nat v) = Some (0, 0)).
Proof.
  intros Hb Hr. apply build_table_inv in Hb as (Hlen & Hnd & Hv & Hpl & ->).
  assert (H256 := NoDup_bytes_length vals Hnd Hr).
  set (ps := pairs 1 0 lens) in *.
  assert (Hok : Forall pair_ok ps) by now apply pairs_ok.
  assert (Hord : ForallOrdPairs before ps) by (apply pairs_sorted; [assumption|lia]).
  set (sizes := map (fun p => Z.of_nat (fst p)) ps ++ repeat 0 (256 - length ps)).
  set (cds := map snd ps ++ repeat 0 (256 - length ps)).
  destruct (lookup_fold sizes cds vals 0 (repeat (0, 0) 256)) as (lt & He & Hl & Hin & Hout); auto.
  { unfold sizes. rewrite app_length, map_length, repeat_length. lia. }
  { unfold cds. rewrite app_length, map_length, repeat_length. lia. }
  exists {| h_lookup := lt; h_length := lens; h_values := vals |}. cbn [h_lookup h_length h_values].
  split; [|split; [reflexivity|split; [reflexivity|split; [assumption|split]]]].
  - unfold huffman_new, create_lookup_table.
    eapply emits_bind0; [|apply emits_ret].
    eapply emits_bind0; [apply (emits_create_sizes lens 0); fold ps; lia|].
    eapply emits_bind0; [apply emits_create_codes; fold ps; try assumption; lia|].
    unfold enumerate, zrange, zlen. rewrite Nat2Z.id. exact He.
  - intros v Hv0. apply In_nth_error in Hv0 as (i & Hi).
    assert (Hi' : (i < length vals)%nat) by (apply nth_error_Some; congruence).
    destruct (nth_error ps i) as [[l y]|] eqn:Ep.
    2:{ apply nth_error_None in Ep. lia. }
    split; [rewrite Forall_forall in Hr; apply Hr; eapply nth_error_In; eassumption|].
    exists l, y.
    assert (Hp : pair_ok (l, y)).
    { rewrite Forall_forall in Hok. apply Hok. eapply nth_error_In. eassumption. }
    destruct Hp as [Hp1 Hp2]. cbn [fst snd] in *.
    split; [|split; [assumption|split; [assumption|]]].
    + cbn [h_lookup]. rewrite (Hin i v Hi). cbn [Nat.add]. unfold sizes, cds.
      rewrite !app_nth1 by (rewrite map_length; lia). f_equal. f_equal.
      * apply nth_error_nth. now rewrite (map_nth_error (fun p => Z.of_nat (fst p)) i ps Ep).
      * apply nth_error_nth. now rewrite (map_nth_error snd i ps Ep).
    + intros rest. eapply decode_symbol_pairs; eassumption.
  - intros v Hv0 Hni. rewrite (Hout v) by (lia || assumption).
    rewrite (nth_error_nth' _ (0,0)) by (rewrite repeat_length; lia). f_equal. apply nth_repeat.
Qed.
