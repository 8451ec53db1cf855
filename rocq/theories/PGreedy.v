(** Huffman's algorithm is optimal: merging the two least weights gives a cost that no assignment of code
    lengths satisfying Kraft's inequality undercuts. *)
From Coq Require Import ZArith List Permutation Lia.
Import ListNotations.
Open Scope Z_scope.

(** [greedy W c]: repeatedly replacing two least elements of [W] by their sum costs [c], the sum of all these sums. *)
Inductive greedy : list Z -> Z -> Prop :=
| g_done W : (length W <= 1)%nat -> greedy W 0
| g_step W a b R c : Permutation W (a :: b :: R) -> a <= b -> (forall x, In x R -> b <= x) ->
    greedy ((a + b) :: R) c -> greedy W (a + b + c).

(** Pairs of a weight and a code length *)
Notation item := (Z * Z)%type (only parsing).
Definition cost (l : list item) : Z := fold_right (fun p s => fst p * snd p + s) 0 l.
Definition ksum (M : Z) (l : list item) : Z := fold_right (fun p s => 2 ^ (M - snd p) + s) 0 l.
Definition lens_ok (M : Z) (l : list item) : Prop := forall p, In p l -> 0 <= snd p <= M.
Definition nonneg (l : list item) : Prop := forall p, In p l -> 0 <= fst p.

Lemma cost_cons p l : cost (p :: l) = fst p * snd p + cost l. Proof. reflexivity. Qed.
Lemma ksum_cons M p l : ksum M (p :: l) = 2 ^ (M - snd p) + ksum M l. Proof. reflexivity. Qed.
Lemma cost_perm a b : Permutation a b -> cost a = cost b.
Proof. induction 1; rewrite ?cost_cons; lia. Qed.
Lemma ksum_perm M a b : Permutation a b -> ksum M a = ksum M b.
Proof. induction 1; rewrite ?ksum_cons; lia. Qed.
Lemma ksum_nonneg M l : 0 <= ksum M l.
Proof. induction l as [|p l IH]; [cbn; lia|]. rewrite ksum_cons. pose proof (Z.pow_nonneg 2 (M - snd p)). lia. Qed.
Lemma cost_nonneg M l : nonneg l -> lens_ok M l -> 0 <= cost l.
Proof.
  intros Hn Hl. induction l as [|p l IH]; [cbn; lia|]. rewrite cost_cons.
  assert (0 <= cost l) by (apply IH; intros q Hq; [apply Hn|apply Hl]; now right).
  pose proof (Hn p (or_introl eq_refl)). pose proof (Hl p (or_introl eq_refl)). nia.
Qed.

(** The item of greatest length *)
Lemma longest (l : list item) : l <> [] -> exists p r, Permutation l (p :: r) /\ forall q, In q r -> snd q <= snd p.
Proof.
  induction l as [|x l IH]; [congruence|]. intros _. destruct l as [|y l].
  - exists x, []. split; [reflexivity|intros q []].
  - destruct (IH ltac:(discriminate)) as (p & r & Hp & Hm). destruct (Z_le_gt_dec (snd x) (snd p)) as [H|H].
    + exists p, (x :: r). split; [rewrite Hp; constructor|]. intros q [<-|Hq]; [exact H|now apply Hm].
    + exists x, (p :: r). split; [now constructor|]. intros q [<-|Hq]; [lia|]. specialize (Hm q Hq). lia.
Qed.

(** Exchange: the least weight can be given the greatest length. *)
Lemma exchange M a la (r : list item) : (forall q, In q r -> a <= fst q) ->
  lens_ok M ((a, la) :: r) ->
  exists L r', Permutation (map fst r') (map fst r) /\ (forall q, In q r' -> snd q <= L) /\
    lens_ok M ((a, L) :: r') /\ ksum M ((a, L) :: r') = ksum M ((a, la) :: r) /\ cost ((a, L) :: r') <= cost ((a, la) :: r).
Proof.
  intros Ha Hl. destruct r as [|x r0] eqn:Er.
  { exists la, []. split; [reflexivity|]. split; [intros q []|]. split; [exact Hl|]. split; [reflexivity|apply Z.le_refl]. }
  rewrite <- Er in *. clear x r0 Er.
  destruct (longest ((a, la) :: r) ltac:(discriminate)) as (p & rr & Hp & Hm).
  destruct (Z_le_gt_dec (snd p) la) as [H|H].
  - exists la, r. split; [reflexivity|]. split; [|split; [exact Hl|split; [reflexivity|apply Z.le_refl]]].
    intros q Hq. assert (Hq' : In q (p :: rr)) by (eapply Permutation_in; [exact Hp|now right]).
    destruct Hq' as [<-|Hq']; [exact H|]. specialize (Hm q Hq'). lia.
  - assert (Hpr : In p r).
    { assert (Hi : In p ((a, la) :: r)) by (eapply Permutation_in; [symmetry; exact Hp|now left]).
      destruct Hi as [<-|Hi]; [cbn in H; lia|exact Hi]. }
    destruct (in_split _ _ Hpr) as (r1 & r2 & ->). destruct p as [wp lp]. cbn [snd] in *.
    assert (Pm : Permutation (r1 ++ (wp, lp) :: r2) ((wp, lp) :: r1 ++ r2)) by (symmetry; apply Permutation_middle).
    exists lp, ((wp, la) :: r1 ++ r2).
    assert (Hall : forall q, In q (r1 ++ (wp, lp) :: r2) -> snd q <= lp).
    { intros q Hq. assert (Hq' : In q ((wp, lp) :: rr)) by (eapply Permutation_in; [exact Hp|now right]).
      destruct Hq' as [<-|Hq']; [cbn; lia|]. exact (Hm q Hq'). }
    split; [|split; [|split; [|split]]].
    + rewrite (Permutation_map fst Pm). reflexivity.
    + intros q [<-|Hq]; [cbn; lia|]. apply Hall. eapply Permutation_in; [symmetry; exact Pm|]. now right.
    + intros q [<-|[<-|Hq]]; cbn [snd].
      * apply (Hl (wp, lp)). right. apply in_or_app. right. now left.
      * apply (Hl (a, la)). now left.
      * apply Hl. right. eapply Permutation_in; [symmetry; exact Pm|]. now right.
    + rewrite !ksum_cons. rewrite (ksum_perm M _ _ Pm), ksum_cons. cbn [snd]. lia.
    + rewrite !cost_cons. rewrite (cost_perm _ _ Pm), cost_cons. cbn [fst snd].
      specialize (Ha (wp, lp)). cbn [fst] in Ha. assert (a <= wp) by (apply Ha, in_or_app; right; now left). nia.
Qed.

(** All but the first term of a Kraft sum are multiples of the step [2 ^ (M - L)]. *)
Lemma ksum_multiple M L l : L <= M -> (forall q, In q l -> 0 <= snd q <= L) -> (2 ^ (M - L) | ksum M l).
Proof.
  intros HL. induction l as [|p l IH]; intros H; [exists 0; reflexivity|]. rewrite ksum_cons. apply Z.divide_add_r.
  - specialize (H p (or_introl eq_refl)). exists (2 ^ (L - snd p)). rewrite <- Z.pow_add_r by lia. f_equal. lia.
  - apply IH. intros q Hq. apply H. now right.
Qed.

Lemma kraft_room M la L k : 0 <= L -> L <= la -> la <= M -> (2 ^ (M - L) | k) -> 2 ^ (M - la) + k <= 2 ^ M -> 2 ^ (M - L) + k <= 2 ^ M.
Proof.
  intros H0 HL HM [x ->] Hk.
  assert (E : 2 ^ M = 2 ^ (M - L) * 2 ^ L) by (rewrite <- Z.pow_add_r by lia; f_equal; lia).
  assert (0 < 2 ^ (M - la)) by (apply Z.pow_pos_nonneg; lia). assert (0 < 2 ^ (M - L)) by (apply Z.pow_pos_nonneg; lia).
  rewrite E in Hk |- *. assert (x < 2 ^ L) by (apply (Z.mul_lt_mono_pos_l (2 ^ (M - L))); lia).
  assert ((x + 1) * 2 ^ (M - L) <= 2 ^ L * 2 ^ (M - L)) by (apply Z.mul_le_mono_nonneg_r; lia). lia.
Qed.

(** The lower bound. *)
Theorem greedy_optimal W c : greedy W c -> forall M items, Permutation (map fst items) W ->
  nonneg items -> lens_ok M items -> ksum M items <= 2 ^ M -> c <= cost items.
Proof.
  induction 1 as [W HW|W a b R c HP Hab Hb Hg IH]; intros M items Hw Hn Hl Hk; [now apply (cost_nonneg M)|].
  assert (Hw' : Permutation (a :: b :: R) (map fst items)) by (rewrite Hw; now symmetry).
  (* split off the items of weights a and b *)
  assert (S1 : exists la items1, Permutation items ((a, la) :: items1) /\ Permutation (map fst items1) (b :: R)).
  { assert (Hi : In a (map fst items)) by (eapply Permutation_in; [exact Hw'|now left]).
    apply in_map_iff in Hi as ((a', la) & E & Hi). cbn [fst] in E. subst a'. destruct (in_split _ _ Hi) as (u & v & ->).
    exists la, (u ++ v). assert (Pm : Permutation (u ++ (a, la) :: v) ((a, la) :: u ++ v)) by (symmetry; apply Permutation_middle).
    split; [exact Pm|]. rewrite (Permutation_map fst Pm) in Hw'. cbn [map fst] in Hw'.
    symmetry. eapply Permutation_cons_inv. exact Hw'. }
  destruct S1 as (la & items1 & P1 & W1).
  assert (Hl1 : lens_ok M ((a, la) :: items1)) by (intros q Hq; apply Hl; eapply Permutation_in; [symmetry; exact P1|exact Hq]).
  rewrite (ksum_perm M _ _ P1) in Hk. rewrite (cost_perm _ _ P1).
  destruct (exchange M a la items1) as (L1 & r1 & Wr1 & Mx1 & Hl2 & K1 & C1); [|exact Hl1|].
  { intros q Hq. assert (In (fst q) (b :: R)) as [<-|Hi] by (eapply Permutation_in; [exact W1|now apply in_map]); [exact Hab|].
    specialize (Hb _ Hi). lia. }
  rewrite <- K1 in Hk. rewrite W1 in Wr1. clear K1 Hl1 W1 P1.
  assert (S2 : exists lb items2, Permutation r1 ((b, lb) :: items2) /\ Permutation (map fst items2) R).
  { assert (Hi : In b (map fst r1)) by (eapply Permutation_in; [symmetry; exact Wr1|now left]).
    apply in_map_iff in Hi as ((b', lb) & E & Hi). cbn [fst] in E. subst b'. destruct (in_split _ _ Hi) as (u & v & ->).
    exists lb, (u ++ v). assert (Pm : Permutation (u ++ (b, lb) :: v) ((b, lb) :: u ++ v)) by (symmetry; apply Permutation_middle).
    split; [exact Pm|]. rewrite (Permutation_map fst Pm) in Wr1. cbn [map fst] in Wr1.
    eapply Permutation_cons_inv. exact Wr1. }
  destruct S2 as (lb & items2 & P2 & W2).
  assert (Hl3 : lens_ok M ((b, lb) :: items2)) by (intros q Hq; apply Hl2; right; eapply Permutation_in; [symmetry; exact P2|exact Hq]).
  assert (Mx1' : forall q, In q ((b, lb) :: items2) -> snd q <= L1).
  { intros q Hq. apply Mx1. eapply Permutation_in; [symmetry; exact P2|exact Hq]. }
  assert (HL1 : 0 <= L1 <= M) by (apply (Hl2 (a, L1)); now left).
  rewrite ksum_cons, (ksum_perm M _ _ P2) in Hk. rewrite cost_cons, (cost_perm _ _ P2) in C1.
  destruct (exchange L1 b lb items2) as (L2 & r2 & Wr2 & Mx2 & Hl4 & K2 & C2).
  { intros q Hq. apply Hb. eapply Permutation_in; [exact W2|now apply in_map]. }
  { intros q Hq. specialize (Hl3 q Hq). specialize (Mx1' q Hq). lia. }
  assert (HL2 : 0 <= L2 <= L1) by (apply (Hl4 (b, L2)); now left).
  assert (Kscale : forall l, lens_ok L1 l -> ksum M l = 2 ^ (M - L1) * ksum L1 l).
  { intros l. induction l as [|p l IHl]; intros Hq; [cbn; lia|]. rewrite !ksum_cons, IHl by (intros q Hq'; apply Hq; now right).
    specialize (Hq p (or_introl eq_refl)). rewrite Z.mul_add_distr_l, <- Z.pow_add_r by lia. do 2 f_equal. lia. }
  assert (K2' : ksum M ((b, L2) :: r2) = ksum M ((b, lb) :: items2)).
  { rewrite !Kscale, K2; [reflexivity| |exact Hl4]. intros q Hq. specialize (Hl3 q Hq). specialize (Mx1' q Hq). lia. }
  rewrite <- K2' in Hk. clear K2 K2' Kscale P2 Hl3 Mx1' Hl2 Mx1. cbn [snd] in Hk.
  assert (Hr2 : forall q, In q r2 -> 0 <= snd q <= L2).
  { intros q Hq. specialize (Mx2 q Hq). specialize (Hl4 q (or_intror Hq)). lia. }
  (* shorten the longest code *)
  assert (Hk' : 2 ^ (M - L2) + ksum M ((b, L2) :: r2) <= 2 ^ M).
  { apply (kraft_room M L1); [lia|lia|lia| |exact Hk]. apply ksum_multiple; [lia|].
    intros q [<-|Hq]; [cbn; lia|now apply Hr2]. }
  rewrite ksum_cons in Hk'. cbn [snd] in Hk'.
  assert (L2pos : 1 <= L2).
  { destruct (Z_le_gt_dec 1 L2) as [|G]; [assumption|]. assert (L2 = 0) by lia. subst L2. rewrite Z.sub_0_r in Hk'.
    assert (0 < 2 ^ M) by (apply Z.pow_pos_nonneg; lia). pose proof (ksum_nonneg M r2). lia. }
  (* nonnegativity *)
  assert (Na : 0 <= a). { assert (In a (map fst items)) as Hi by (eapply Permutation_in; [exact Hw'|now left]). apply in_map_iff in Hi as (p & <- & Hp). now apply Hn. }
  (* merge *)
  assert (G : c <= cost ((a + b, L2 - 1) :: r2)).
  { apply (IH M).
    - cbn [map fst]. constructor. rewrite Wr2. exact W2.
    - intros q [<-|Hq]; cbn [fst]; [lia|]. assert (Hi : In (fst q) R).
      { eapply Permutation_in; [exact W2|]. eapply Permutation_in; [exact Wr2|]. now apply in_map. }
      specialize (Hb _ Hi). lia.
    - intros q [<-|Hq]; cbn [snd]; [lia|]. specialize (Hr2 q Hq). lia.
    - rewrite ksum_cons. cbn [snd]. replace (M - (L2 - 1)) with (1 + (M - L2)) by lia. rewrite Z.pow_add_r by lia. lia. }
  rewrite cost_cons in G. rewrite !cost_cons in C1, C2. rewrite cost_cons in *. cbn [fst snd] in *. nia.
Qed.
