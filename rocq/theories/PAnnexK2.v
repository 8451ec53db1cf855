(** Lemmas: the code sizes found by the loop of [new_optimized] are the depths in the tree of Annex K.2 (property C70). *)
From Coq Require Import ZArith List Bool Lia Permutation.
From Verif Require Import Rust T81 MHuffman SHuff SEncode SFile SSize SRestart SAnnexK2 PBits PTree PLimit POptimal.
Import ListNotations.
Open Scope Z_scope.

(** ** take_first *)
Lemma take_first_spec l : match take_first l with
  | None => l = []
  | Some (a, r) => Permutation l (a :: r) /\ forall b, In b r -> precedes b a = false
  end.
Proof.
  induction l as [|a r IH]; cbn [take_first]; [reflexivity|].
  destruct (take_first r) as [[b r']|].
  - destruct IH as [Hp Hb]. destruct (precedes a b) eqn:E.
    + split; [reflexivity|]. intros x Hx. apply (Permutation_in _ Hp) in Hx as [<-|Hx].
      * revert E. unfold precedes. lia.
      * specialize (Hb x Hx). revert E Hb. unfold precedes. lia.
    + split; [rewrite Hp; apply perm_swap|]. intros x [<-|Hx]; [exact E|now apply Hb].
  - subst r. split; [reflexivity|]. intros b [].
Qed.
Lemma take_first_none l : take_first l = None -> l = [].
Proof. intros E. pose proof (take_first_spec l) as H. now rewrite E in H. Qed.
Lemma take_first_some l a r : take_first l = Some (a, r) -> Permutation l (a :: r) /\ forall b, In b r -> precedes b a = false.
Proof. intros E. pose proof (take_first_spec l) as H. now rewrite E in H. Qed.

(** ** find_least: the last of the least ones *)
Lemma find_least_last skip l : forall i v vmin,
  (exists k, find_least skip l i v vmin = Some (i + k)%nat /\ elig skip i l k /\ nth k l 0 <= vmin /\
     forall k', elig skip i l k' -> nth k l 0 < nth k' l 0 \/ (nth k l 0 = nth k' l 0 /\ (k' <= k)%nat))
  \/ (find_least skip l i v vmin = v /\ forall k, elig skip i l k -> vmin < nth k l 0).
Proof.
  induction l as [|f l IH]; intros i v vmin.
  - right. split; [reflexivity|]. intros k (H & _). cbn in H. lia.
  - cbn [find_least].
    assert (Sh : forall k, elig skip i (f :: l) (S k) -> elig skip (S i) l k).
    { intros k (H1 & H2 & H3). cbn [length nth] in *. repeat split; [lia|exact H2|]. now rewrite Nat.add_succ_comm. }
    assert (Sh' : forall k, elig skip (S i) l k -> elig skip i (f :: l) (S k)).
    { intros k (H1 & H2 & H3). cbn [length nth] in *. repeat split; cbn [length nth]; [lia|exact H2|]. now rewrite <- Nat.add_succ_comm. }
    destruct ((0 <? f) && (f <=? vmin) && negb (match skip with Some s => (i =? s)%nat | None => false end)) eqn:E.
    + assert (Hsk : skip <> Some i). { destruct skip as [s|]; [|discriminate]. intros [= ->]. lia. }
      assert (E0 : elig skip i (f :: l) 0). { repeat split; cbn [length nth]; [lia|lia|now rewrite Nat.add_0_r]. }
      left. destruct (IH (S i) (Some i) f) as [(k & Hr & He & Hle & Hmin)|[Hr Hmin]].
      * exists (S k). split; [rewrite Hr; f_equal; lia|]. split; [now apply Sh'|]. cbn [nth]. split; [lia|].
        intros [|k'] Hk'; cbn [nth]; [lia|]. specialize (Hmin _ (Sh _ Hk')). lia.
      * exists 0%nat. split; [rewrite Hr; f_equal; lia|]. split; [exact E0|]. cbn [nth]. split; [lia|].
        intros [|k'] Hk'; cbn [nth]; [lia|]. specialize (Hmin k' (Sh _ Hk')). lia.
    + assert (N0 : elig skip i (f :: l) 0 -> vmin < f).
      { intros (_ & H2 & H3). cbn [nth] in H2. rewrite Nat.add_0_r in H3.
        destruct skip as [s|]; [|lia]. destruct (Nat.eqb_spec i s) as [->|]; [now contradiction H3|]. cbn [negb] in E. lia. }
      destruct (IH (S i) v vmin) as [(k & Hr & He & Hle & Hmin)|[Hr Hmin]].
      * left. exists (S k). split; [rewrite Hr; f_equal; lia|]. split; [now apply Sh'|]. cbn [nth]. split; [exact Hle|].
        intros [|k'] Hk'; cbn [nth]; [specialize (N0 Hk'); lia|]. specialize (Hmin _ (Sh _ Hk')). lia.
      * right. split; [exact Hr|]. intros [|k'] Hk'; cbn [nth]; [now apply N0|]. apply Hmin. now apply Sh.
Qed.

(** The entry found is the one with these two properties. *)
Lemma find_least_is skip freq v : (forall i, nth i freq 0 <= U32_MAX) -> 0 < nth v freq 0 -> skip <> Some v ->
  (forall i, 0 < nth i freq 0 -> skip <> Some i -> nth v freq 0 < nth i freq 0 \/ (nth v freq 0 = nth i freq 0 /\ (i <= v)%nat)) ->
  find_least skip freq 0 None U32_MAX = Some v.
Proof.
  intros Bnd Hv Hs Hmin.
  assert (In' : forall i, 0 < nth i freq 0 -> (i < length freq)%nat).
  { intros i Hi. destruct (Nat.lt_ge_cases i (length freq)) as [|G]; [assumption|]. rewrite nth_overflow in Hi by exact G. lia. }
  destruct (find_least_last skip freq 0 None U32_MAX) as [(k & Ek & (A & B & C) & _ & Hm)|[_ Hm]].
  - rewrite Ek. f_equal. cbn [Nat.add] in *. specialize (Hm v). specialize (Hmin k B C).
    assert (elig skip 0 freq v) as Ev by (repeat split; [now apply In'|exact Hv|exact Hs]). specialize (Hm Ev). lia.
  - exfalso. assert (elig skip 0 freq v) as Ev by (repeat split; [now apply In'|exact Hv|exact Hs]). specialize (Hm _ Ev).
    specialize (Bnd v). lia.
Qed.
Lemma find_least_none skip freq : (forall i, 0 < nth i freq 0 -> skip = Some i) -> find_least skip freq 0 None U32_MAX = None.
Proof.
  intros H. destruct (find_least_last skip freq 0 None U32_MAX) as [(k & _ & (_ & B & C) & _)|[E _]]; [|exact E].
  exfalso. apply C. now apply H.
Qed.

(** ** Trees *)
Fixpoint lvs (t : tree) : list nat := match t with Leaf v => [v] | Node a b => lvs a ++ lvs b end.
Definition lv (t : weighted) : list nat := lvs (shape t).
Lemma depth_none t v : ~ In v (lvs t) -> depth t v = None.
Proof.
  induction t as [u|a IHa b IHb]; cbn [lvs depth]; intros H.
  - destruct (Nat.eqb_spec u v) as [->|]; [exfalso; apply H; now left|reflexivity].
  - rewrite IHa, IHb; [reflexivity| |]; intros H'; apply H, in_or_app; [now right|now left].
Qed.

Section Trees.
  Variable orig : list Z.
  Variable Hlen : length orig = 257%nat.
  Variable Hnn : forall s, 0 <= w0 orig s.
  Variable Htot : weight orig (seq 0 257) < 4294967296.

  Definition fits (cs : list Z) (t : weighted) : Prop :=
    label t = PTree.head (lv t) /\ wt t = weight orig (lv t) /\ forall s, In s (lv t) -> depth (shape t) s = Some (nth s cs 0).

  Lemma head_app l1 l2 : l1 <> [] -> PTree.head (l1 ++ l2) = PTree.head l1.
  Proof. destruct l1; [congruence|reflexivity]. Qed.
  Lemma lvs_nonempty t : lvs t <> [].
  Proof. induction t; cbn [lvs]; [discriminate|]. intros H. apply app_eq_nil in H. tauto. Qed.

  Lemma tree_loop P : forall fuel n freq others cs m L, inv orig freq others cs m (map lv L) -> Forall (fits cs) L ->
    (length L <= fuel)%nat -> (0 < fuel)%nat -> (length L <= n)%nat ->
    exists cs', code_sizes_loop P fuel freq others cs = Ret cs' /\ Forall (fits cs') (join n L) /\ (length (join n L) <= 1)%nat /\
      Permutation (concat (map lv L)) (concat (map lv (join n L))) /\ forall s, ~ In s (concat (map lv L)) -> nth s cs' 0 = 0.
  Proof.
    induction fuel as [|fuel IH]; intros n freq others cs m L Hinv Hfits Hf H0 Hn; [lia|].
    assert (Hi := Hinv). destruct Hi as [If Io Ic In_ Ib Il Ih Inn Iw Ik Id Im Im0 Ilv Idd].
    assert (Bnd : forall i, nth i freq 0 <= U32_MAX).
    { intros i. destruct (Z_le_gt_dec (nth i freq 0) 0) as [|G]; [unfold U32_MAX; lia|].
      apply Z.gt_lt, Ih, in_map_iff in G as (l & <- & Hl). rewrite (Iw l Hl).
      assert (weight orig l < 4294967296).
      { eapply Z.le_lt_trans; [apply weight_total|exact Htot]; try assumption.
        - clear - In_ Hl. induction (map lv L) as [|x F IHF]; [destruct Hl|]. cbn [concat] in In_.
          apply NoDup_app_inv in In_ as (A & B & _). destruct Hl as [->|Hl]; [exact A|now apply IHF].
        - apply Forall_forall. intros s Hs. rewrite Forall_forall in Ib. apply Ib. apply in_concat. now exists l. }
      unfold U32_MAX. lia. }
    assert (Wt : forall t, In t L -> nth (label t) freq 0 = wt t /\ 0 < wt t).
    { intros t Ht. rewrite Forall_forall in Hfits. destruct (Hfits t Ht) as (E1 & E2 & _). rewrite E1, E2.
      split; [apply Iw; now apply in_map|]. rewrite <- (Iw (lv t)) by now apply in_map. apply Ih. rewrite map_map. apply in_map_iff. now exists t. }
    assert (Lb : forall i, 0 < nth i freq 0 -> exists t, In t L /\ label t = i).
    { intros i Hi. apply Ih in Hi. rewrite map_map in Hi. apply in_map_iff in Hi as (t & <- & Ht). exists t. split; [exact Ht|].
      rewrite Forall_forall in Hfits. apply (Hfits t Ht). }
    assert (Done : (length L <= 1)%nat -> code_sizes_loop P (S fuel) freq others cs = Ret cs /\ join n L = L).
    { intros Hl. cbn [code_sizes_loop]. destruct L as [|t [|t' L]]; [| |cbn in Hl; lia].
      - rewrite find_least_none; [|intros i Hi; destruct (Lb i Hi) as (t & [] & _)]. split; [reflexivity|]. destruct n; reflexivity.
      - destruct (Wt t (or_introl eq_refl)) as [W1 W2].
        rewrite (find_least_is None freq (label t)); [|exact Bnd|lia|discriminate|].
        + rewrite find_least_none.
          * split; [reflexivity|]. destruct n; reflexivity.
          * intros i Hi. destruct (Lb i Hi) as (u & [<-|[]] & <-). reflexivity.
        + intros i Hi _. destruct (Lb i Hi) as (u & [<-|[]] & <-). right. lia. }
    destruct (le_lt_dec (length L) 1) as [Hl|Hl].
    { destruct (Done Hl) as [E1 E2]. exists cs. rewrite E2. repeat split; try assumption. reflexivity. }
    clear Done. destruct n as [|n]; [lia|]. cbn [join].
    destruct (take_first L) as [[a r]|] eqn:Ea; [|apply take_first_none in Ea; subst L; cbn in Hl; lia].
    apply take_first_some in Ea as [Pa Fa].
    destruct (take_first r) as [[b r']|] eqn:Eb.
    2:{ apply take_first_none in Eb. subst r. apply Permutation_length in Pa. cbn in Pa. lia. }
    apply take_first_some in Eb as [Pb Fb].
    assert (Pab : Permutation L (a :: b :: r')) by (rewrite Pa; now constructor).
    assert (Ia : In a L) by (apply (Permutation_in _ (Permutation_sym Pab)); now left).
    assert (Ib' : In b L) by (apply (Permutation_in _ (Permutation_sym Pab)); right; now left).
    assert (Ir : forall t, In t r' -> In t L) by (intros t Ht; apply (Permutation_in _ (Permutation_sym Pab)); right; now right).
    assert (Hinv' := inv_perm _ _ _ _ _ _ _ (Permutation_map lv Pab) Hinv). cbn [map] in Hinv'.
    assert (Hi := Hinv'). destruct Hi as [_ _ _ Nd' Ib'' Il' _ _ _ _ _ _ _ _ _]. cbn [concat] in Nd', Ib''.
    assert (Hfits' := Permutation_Forall Pab Hfits).
    inversion Hfits' as [|? ? Ta Hf1]; subst. inversion Hf1 as [|? ? Tb Hf2]; subst.
    destruct Ta as (La & Wa & Da). destruct Tb as (Lb' & Wb & Db).
    inversion Il' as [|? ? Ka Il1]; subst. inversion Il1 as [|? ? Kb Il2]; subst.
    assert (Hab : label a <> label b).
    { rewrite La, Lb'. intros E. apply NoDup_app_inv in Nd' as (_ & _ & D). apply (D (PTree.head (lv a))); [apply (linked_head others); assumption|].
      rewrite E. apply in_or_app. left. now apply (linked_head others). }
    destruct (Wt a Ia) as [Wa1 Wa2]. destruct (Wt b Ib') as [Wb1 Wb2].
    assert (V1 : find_least None freq 0 None U32_MAX = Some (label a)).
    { apply find_least_is; [exact Bnd|lia|discriminate|]. intros i Hi _. destruct (Lb i Hi) as (t & Ht & <-).
      destruct (Wt t Ht) as [W1 W2]. rewrite Wa1, W1.
      apply (Permutation_in _ Pa) in Ht as [<-|Ht]; [right; lia|]. specialize (Fa t Ht). revert Fa. unfold precedes. lia. }
    assert (V2 : find_least (Some (label a)) freq 0 None U32_MAX = Some (label b)).
    { apply find_least_is; [exact Bnd|lia|congruence|]. intros i Hi Hs. destruct (Lb i Hi) as (t & Ht & <-).
      destruct (Wt t Ht) as [W1 W2]. rewrite Wb1, W1.
      apply (Permutation_in _ Pab) in Ht as [<-|[<-|Ht]]; [congruence|right; lia|]. specialize (Fb t Ht). revert Fb. unfold precedes. lia. }
    assert (H12 : weight orig (lv a) <= weight orig (lv b)).
    { rewrite <- Wa, <- Wb. assert (Hb : In b r) by (apply (Permutation_in _ (Permutation_sym Pb)); now left).
      specialize (Fa b Hb). revert Fa. unfold precedes. lia. }
    assert (Hrest : forall l, In l (map lv r') -> weight orig (lv b) <= weight orig l).
    { intros l Hl'. apply in_map_iff in Hl' as (t & <- & Ht). rewrite Forall_forall in Hf2. destruct (Hf2 t Ht) as (_ & W & _).
      rewrite <- Wb, <- W. specialize (Fb t Ht). revert Fb. unfold precedes. lia. }
    cbn [code_sizes_loop]. rewrite V1, V2.
    destruct (merge orig Hlen Hnn Htot freq others cs m (lv a) (lv b) (map lv r') Hinv' H12 Hrest) as (cs1 & cs2 & B1 & B2 & Hnew & _).
    assert (Hcs : forall i, nth i cs2 0 = nth i cs 0 + (if in_dec Nat.eq_dec i (lv a ++ lv b) then 1 else 0)).
    { destruct (NoDup_app_inv _ _ Nd') as (N1 & N2 & D12). destruct (NoDup_app_inv _ _ N2) as (N2' & _ & _).
      assert (Bd : forall l, In l [lv a; lv b] -> Forall (fun s => s < 257)%nat l).
      { apply Forall_app in Ib'' as [X Y]. apply Forall_app in Y as [Y _]. intros l [<-|[<-|[]]]; assumption. }
      assert (Len : forall l, NoDup l -> Forall (fun s => s < 257)%nat l -> (length l <= 258)%nat).
      { intros l Hnd Hb. transitivity (length (seq 0 257)); [|rewrite seq_length; lia]. apply NoDup_incl_length; [exact Hnd|].
        intros s Hs. rewrite Forall_forall in Hb. apply in_seq. specialize (Hb s Hs). lia. }
      destruct (bump_chain_spec others (lv a) 258 cs Ka N1 (Len _ N1 (Bd _ (or_introl eq_refl)))) as (c1 & E1 & El1 & En1).
      { rewrite Ic. apply Bd. now left. }
      rewrite E1 in B1. injection B1 as <-.
      destruct (bump_chain_spec (upd others (last (lv a) 0%nat) (Z.of_nat (PTree.head (lv b)))) (lv b) 258 c1) as (c2 & E2 & El2 & En2).
      { apply linked_upd; [exact Kb|]. intros H. apply (D12 (last (lv a) 0%nat)); [|apply in_or_app; now left].
        pose proof (lvs_nonempty (shape a)) as Hne. unfold lv. destruct (lvs (shape a)) as [|x y]; [congruence|]. apply last_in. }
      { exact N2'. }
      { apply Len; [exact N2'|]. apply Bd. right. now left. }
      { rewrite El1, Ic. apply Bd. right. now left. }
      rewrite E2 in B2. injection B2 as <-.
      intros i. rewrite En2, En1.
      destruct (in_dec Nat.eq_dec i (lv a ++ lv b)) as [H|H], (in_dec Nat.eq_dec i (lv a)) as [H1|H1], (in_dec Nat.eq_dec i (lv b)) as [H2|H2];
        try lia; exfalso; rewrite in_app_iff in H; try tauto. apply (D12 i H1). apply in_or_app. now left. }
    rewrite <- La in B1, Hnew. rewrite <- Lb' in B2, Hnew.
    assert (Wsum : wt a + wt b < 4294967296).
    { destruct Hnew as [_ _ _ Nd Bd _ _ _ _ _ _ _ _ _ _]. cbn [concat] in Nd, Bd.
      apply NoDup_app_inv in Nd as (Nd & _ & _). apply Forall_app in Bd as [Bd _].
      pose proof (weight_total orig Hlen Hnn _ Nd Bd) as W. rewrite (lsum_app _ (lv a) (lv b) : weight orig (lv a ++ lv b) = weight orig (lv a) + weight orig (lv b)) in W. lia. }
    rewrite ck_u_ret by (rewrite Wa1, Wb1; lia). cbn [bind]. rewrite B1. cbn [bind]. rewrite B2. cbn [bind].
    set (u := {| wt := wt a + wt b; label := label a; shape := Node (shape a) (shape b) |}).
    assert (Lu : lv u = lv a ++ lv b) by reflexivity.
    destruct (IH n (upd (upd freq (label a) (nth (label a) freq 0 + nth (label b) freq 0)) (label b) 0)
                (upd others (last (lv a) 0%nat) (Z.of_nat (label b))) cs2 (weight orig (lv b)) (u :: r')) as (cs' & Er & Hfit & Hlen1 & Hp & Hz).
    - cbn [map]. rewrite Lu. exact Hnew.
    - assert (In12 : forall s, In s (lv a ++ lv b) -> nth s cs2 0 = nth s cs 0 + 1).
      { intros s Hs. rewrite Hcs. destruct (in_dec Nat.eq_dec s (lv a ++ lv b)); [lia|contradiction]. }
      destruct (NoDup_app_inv _ _ Nd') as (N1 & N2 & D12).
      constructor.
      + split; [|split].
        * rewrite Lu, head_app by apply lvs_nonempty. exact La.
        * rewrite Lu. cbn [wt u]. rewrite Wa, Wb. symmetry. apply lsum_app.
        * intros s Hs. rewrite Lu in Hs. rewrite (In12 s Hs). cbn [shape u depth].
          apply in_app_or in Hs as [Hs|Hs].
          -- rewrite (Da s Hs). reflexivity.
          -- rewrite (depth_none (shape a)); [|intros H; apply (D12 s H), in_or_app; now left]. rewrite (Db s Hs). reflexivity.
      + apply Forall_forall. intros t Ht. rewrite Forall_forall in Hf2. destruct (Hf2 t Ht) as (A & B & C).
        split; [exact A|]. split; [exact B|]. intros s Hs. rewrite (C s Hs), Hcs.
        destruct (in_dec Nat.eq_dec s (lv a ++ lv b)) as [H|H]; [|f_equal; lia]. exfalso.
        assert (Hc : In s (concat (map lv r'))) by (apply in_concat; exists (lv t); split; [now apply in_map|exact Hs]).
        apply in_app_or in H as [H|H].
        * apply (D12 s H). apply in_or_app. now right.
        * apply NoDup_app_inv in N2 as (_ & _ & D). exact (D s H Hc).
    - apply Permutation_length in Pab. cbn [length] in *. lia.
    - apply Permutation_length in Pab. cbn [length] in *. lia.
    - apply Permutation_length in Pab. cbn [length] in *. lia.
    - assert (Pc : Permutation (concat (map lv L)) (concat (map lv (u :: r')))).
      { transitivity (concat (map lv (a :: b :: r'))).
        - clear - Pab. induction Pab; cbn [map concat]; [constructor|now apply Permutation_app_head| |now transitivity (concat (map lv l'))].
          rewrite !app_assoc. apply Permutation_app_tail, Permutation_app_comm.
        - cbn [map concat]. rewrite Lu, app_assoc. reflexivity. }
      exists cs'. split; [exact Er|]. split; [exact Hfit|]. split; [exact Hlen1|]. split; [now rewrite Pc|].
      intros s Hs. apply Hz. intros H. apply Hs. apply (Permutation_in _ (Permutation_sym Pc) H).
  Qed.
End Trees.

(** ** The size of each code *)
Section Sizes.
  Variable freq : list Z.
  Variable Hlen : length freq = 257%nat.
  Variable Hnn : forall s, 0 <= w0 freq s.
  Variable Htot : weight freq (seq 0 257) < 4294967296.

  Lemma leaves_lv : map lv (leaves_of freq) = map (fun i => [i]) (live0 freq).
  Proof.
    unfold leaves_of, live0. rewrite Hlen. clear Hnn Htot. induction (seq 0 257) as [|v l IH]; [reflexivity|].
    cbn [flat_map filter]. fold (w0 freq v). destruct (0 <? w0 freq v); cbn [app map]; rewrite IH; reflexivity.
  Qed.
  Lemma code_size_is P cs : (1 <= length (live0 freq))%nat ->
    code_sizes_loop P 258 freq (repeat (-1) 257) (repeat 0 257) = Ret cs -> forall v, code_size freq v = nth v cs 0.
  Proof.
    intros Hl E v.
    assert (Ll : length (leaves_of freq) = length (live0 freq)) by (rewrite <- (map_length lv), leaves_lv, map_length; reflexivity).
    assert (L0 := live0_length freq Hlen Hnn).
    destruct (tree_loop freq Hlen Hnn Htot P 258 257 freq (repeat (-1) 257) (repeat 0 257) 0 (leaves_of freq)) as (cs' & E' & Hf & Hl1 & Hp & Hz).
    - rewrite leaves_lv. now apply inv_init.
    - apply Forall_forall. intros t Ht. unfold leaves_of in Ht. apply in_flat_map in Ht as (s & _ & Ht).
      destruct (0 <? nth s freq 0); [|destruct Ht]. destruct Ht as [<-|[]]. split; [reflexivity|]. split.
      + unfold lv, weight, w0. cbn [wt shape lvs lsum fold_right]. lia.
      + intros u [<-|[]]. cbn [shape depth]. rewrite Nat.eqb_refl, nth_repeat. reflexivity.
    - lia.
    - lia.
    - lia.
    - rewrite E in E'. injection E' as <-. unfold code_size. rewrite Hlen.
      destruct (join 257 (leaves_of freq)) as [|t [|? ?]]; [|clear Hl1|cbn in Hl1; lia].
      { exfalso. cbn [map concat] in Hp. apply Permutation_sym, Permutation_nil in Hp. rewrite leaves_lv, concat_single in Hp.
        rewrite Hp in Hl. cbn in Hl. lia. }
      inversion Hf as [|? ? (_ & _ & Hd) _]; subst. cbn [map concat] in Hp. rewrite app_nil_r in Hp.
      destruct (in_dec Nat.eq_dec v (lv t)) as [Hi|Hi].
      + rewrite (Hd v Hi). reflexivity.
      + rewrite depth_none by exact Hi. symmetry. apply Hz. intros H. apply Hi. exact (Permutation_in _ Hp H).
  Qed.
End Sizes.

(** ** The number of codes of each size *)
Definition agree (f : sizes) (b : list Z) : Prop := forall k, f k = nth k b 0.
Lemma greatest_agree P f b : agree f b -> (forall k, 0 <= nth k b 0) -> forall j k, find_shorter P b j = Ret k -> greatest f j = k.
Proof.
  intros A Hn. induction j as [|j IH]; intros k E; cbn [find_shorter greatest] in *; rewrite A.
  - destruct (Z.eqb_spec (nth 0 b 0) 0) as [Z0|Z0]; [destruct (dbg P); discriminate|]. specialize (Hn 0%nat).
    replace (0 <? nth 0 b 0) with true by lia. now injection E.
  - destruct (Z.eqb_spec (nth (S j) b 0) 0) as [Z0|Z0].
    + rewrite Z0. cbn [Z.ltb Z.compare]. now apply IH.
    + specialize (Hn (S j)). replace (0 <? nth (S j) b 0) with true by lia. now injection E.
Qed.
Lemma greatest_is f b i : agree f b -> 1 <= nth i b 0 -> forall n, (forall k, (i < k <= n)%nat -> nth k b 0 = 0) -> (i <= n)%nat -> greatest f n = i.
Proof.
  intros A Hi. induction n as [|n IH]; intros Ha Hn; cbn [greatest]; rewrite A.
  - assert (i = 0)%nat as -> by lia. now destruct (0 <? nth 0 b 0).
  - destruct (Nat.eq_dec i (S n)) as [->|Ne]; [now replace (0 <? nth (S n) b 0) with true by lia|].
    rewrite (Ha (S n)) by lia. cbn [Z.ltb Z.compare]. apply IH; [|lia]. intros k Hk. apply Ha. lia.
Qed.
Lemma only_dec k m d : only k m d = if Nat.eq_dec k m then d else 0.
Proof. unfold only. destruct (Nat.eqb_spec k m), (Nat.eq_dec k m); congruence. Qed.

Section Levels.
  Variable N : Z.
  Variable HN : N <= 255.

  Lemma shorten_move P f b i : good N b i -> (17 <= i <= 32)%nat -> 0 < nth i b 0 -> agree f b ->
    exists j b', find_shorter P b (i - 2) = Ret j /\
      (let* a := ck_u P 8 (nth i b 0 - 2) in
       let bits := upd b i a in
       let* a := ck_u P 8 (nth (i - 1) bits 0 + 1) in
       let bits := upd bits (i - 1) a in
       let* a := ck_u P 8 (nth (j + 1) bits 0 + 2) in
       let bits := upd bits (j + 1) a in
       let* a := ck_u P 8 (nth j bits 0 - 1) in
       Ret (upd bits j a)) = Ret b' /\ good N b' i /\ nth i b' 0 = nth i b 0 - 2 /\ agree (move_pair i f) b'.
  Proof.
    intros G Hi Hp Ag.
    destruct (shorten_step N HN P b i G Hi Hp) as (j & b' & Ej & Eb & G' & Hd).
    exists j, b'. split; [exact Ej|]. split; [exact Eb|]. split; [exact G'|]. split; [exact Hd|].
    assert (Egr : greatest f (i - 2) = j) by (apply (greatest_agree P f b Ag (g_nonneg _ _ _ G) _ _ Ej)).
    destruct (find_shorter_spec P b (i - 2) (shorter_exists N HN b i G Hi)) as (j' & Ej' & Hj & Hjz).
    rewrite Ej in Ej'. injection Ej' as <-.
    destruct G as [Gl Gn Gz Gt Gk Ga]. destruct G' as [Gl' Gn' Gz' Gt' Gk' Ga'].
    assert (Hj1 : (1 <= j)%nat) by (destruct j; lia).
    assert (C : forall z a, ck_u P 8 z = Ret a -> exists q, a = z + 256 * q).
    { intros z a. unfold ck_u. destruct ((0 <=? z) && (z <? 2 ^ 8)); [intros [= <-]; exists 0; lia|].
      destruct (dbg P); [discriminate|]. intros [= <-]. exists (- (z / 256)). unfold wrap_u; change (2 ^ 8) with 256.
      pose proof (Z.div_mod z 256 ltac:(lia)). lia. }
    assert (U : forall l k x m, (k < length l)%nat -> nth m (upd l k x) 0 = if Nat.eq_dec m k then x else nth m l 0).
    { intros l k x m Hk. rewrite nth_upd. replace (k <? length l)%nat with true by lia. rewrite andb_true_r.
      destruct (Nat.eqb_spec k m), (Nat.eq_dec m k); congruence. }
    revert Eb. cbv zeta.
    destruct (ck_u P 8 (nth i b 0 - 2)) as [a1| | |] eqn:E1; cbn [bind]; try discriminate.
    destruct (ck_u P 8 (nth (i - 1) (upd b i a1) 0 + 1)) as [a2| | |] eqn:E2; cbn [bind]; try discriminate.
    destruct (ck_u P 8 (nth (j + 1) (upd (upd b i a1) (i - 1) a2) 0 + 2)) as [a3| | |] eqn:E3; cbn [bind]; try discriminate.
    destruct (ck_u P 8 (nth j (upd (upd (upd b i a1) (i - 1) a2) (j + 1) a3) 0 - 1)) as [a4| | |] eqn:E4; cbn [bind]; try discriminate.
    intros [= Eb]. intros m.
    assert (Cong : exists q, nth m b' 0 = move_pair i f m + 256 * q).
    { unfold move_pair. rewrite Egr, !only_dec, (Ag m). rewrite <- Eb.
      apply C in E1 as [q1 E1], E2 as [q2 E2], E3 as [q3 E3], E4 as [q4 E4].
      rewrite !U in * by (rewrite ?upd_length; lia). clear - E1 E2 E3 E4 Hj Hi Hj1.
      repeat match goal with |- context [Nat.eq_dec ?a ?b] => destruct (Nat.eq_dec a b) end; try (exfalso; lia);
      repeat match goal with H : context [Nat.eq_dec ?a ?b] |- _ => destruct (Nat.eq_dec a b) end; try (exfalso; lia);
      repeat match goal with H : m = _ |- _ => rewrite <- H in *; clear H end;
      first [exists 0; lia | exists q1; lia | exists q2; lia | exists q3; lia | exists q4; lia | exists (q2 + q3); lia | idtac]. }
    destruct Cong as [q Eq].
    assert (B1 : 0 <= nth m b' 0 <= 255).
    { split; [apply Gn'|]. destruct (Nat.lt_ge_cases m 33) as [H|H]; [|rewrite nth_overflow by lia; lia].
      pose proof (entry_le N b' m Gl' Gn' Gt' H). lia. }
    assert (B2 : 0 <= move_pair i f m <= 255).
    { assert (S3 : forall x, (x < 33)%nat -> x <> i -> x <> j -> nth x b 0 + nth i b 0 + nth j b 0 <= 255).
      { intros x Hx Hxi Hxj. pose proof (entries3_le N b x i j Gl Gn Gt Hx ltac:(lia) ltac:(lia) Hxi Hxj ltac:(lia)). lia. }
      assert (Si := S3 (i - 1)%nat ltac:(lia) ltac:(lia) ltac:(lia)).
      assert (Sj := S3 (j + 1)%nat ltac:(lia) ltac:(lia) ltac:(lia)).
      assert (Hm : nth m b 0 <= 255).
      { destruct (Nat.lt_ge_cases m 33) as [H|H]; [|rewrite nth_overflow by lia; lia]. pose proof (entry_le N b m Gl Gn Gt H). lia. }
      pose proof (Gn m) as Pm. pose proof (Gn i) as Pi. pose proof (Gn j) as Pj. pose proof (Gn (i - 1)%nat) as Pi1. pose proof (Gn (j + 1)%nat) as Pj1.
      pose proof (Gn' i) as Pi'. rewrite Hd in Pi'.
      unfold move_pair. rewrite Egr, !only_dec, (Ag m). clear - S3 Si Sj Hm Pm Pi Pj Pi1 Pj1 Pi' Hjz Hj Hi Hj1.
      repeat match goal with |- context [Nat.eq_dec ?a ?b] => destruct (Nat.eq_dec a b) end; try (exfalso; lia);
      repeat match goal with H : m = _ |- _ => rewrite <- H in *; clear H end; try lia. }
    lia.
  Qed.

  Lemma level_agree P i : (17 <= i <= 32)%nat -> forall fuel f b, good N b i -> agree f b -> nth i b 0 < Z.of_nat fuel ->
    exists b', shorten_level P fuel i b = Ret b' /\ good N b' (i - 1) /\ agree (clear_size f i) b'.
  Proof.
    intros Hi. induction fuel as [|fuel IH]; intros f b G Ag Hf; [pose proof (g_nonneg _ _ _ G i); lia|].
    cbn [shorten_level]. destruct (0 <? nth i b 0) eqn:E.
    - destruct (shorten_move P f b i G Hi ltac:(lia) Ag) as (j & b' & Ej & Eb & G' & Hd & Ag').
      rewrite Ej. cbn [bind]. destruct (IH _ b' G' Ag' ltac:(lia)) as (b'' & E'' & G'' & Ag'').
      exists b''. split; [|split; [exact G''|]].
      + revert Eb. cbv zeta.
        destruct (ck_u P 8 (nth i b 0 - 2)) as [a1| | |]; cbn [bind]; try discriminate.
        destruct (ck_u P 8 (nth (i - 1) (upd b i a1) 0 + 1)) as [a2| | |]; cbn [bind]; try discriminate.
        destruct (ck_u P 8 (nth (j + 1) (upd (upd b i a1) (i - 1) a2) 0 + 2)) as [a3| | |]; cbn [bind]; try discriminate.
        destruct (ck_u P 8 (nth j (upd (upd (upd b i a1) (i - 1) a2) (j + 1) a3) 0 - 1)) as [a4| | |]; cbn [bind]; try discriminate.
        intros [= ->]. exact E''.
      + intros k. rewrite <- Ag''. unfold clear_size.
        pose proof (Ag' i) as A1. pose proof (Ag i) as A0. rewrite Hd, <- A0 in A1. pose proof (g_nonneg _ _ _ G' i) as Hge.
        rewrite Hd, <- A0 in Hge.
        assert (Hq : Z.to_nat (f i / 2) = S (Z.to_nat ((f i - 2) / 2))).
        { replace (f i) with (f i - 2 + 1 * 2) at 1 by lia. rewrite Z.div_add by lia.
          assert (0 <= (f i - 2) / 2) by (apply Z.div_pos; lia). lia. }
        rewrite A1, Hq. generalize (Z.to_nat ((f i - 2) / 2)). intros n. clear.
        assert (R : Nat.iter (S n) (move_pair i) f = Nat.iter n (move_pair i) (move_pair i f)).
        { induction n as [|n IHn]; [reflexivity|]. change (move_pair i (Nat.iter (S n) (move_pair i) f) = move_pair i (Nat.iter n (move_pair i) (move_pair i f))).
          now rewrite IHn. }
        now rewrite R.
    - exists b. split; [reflexivity|].
      assert (Hz : nth i b 0 = 0) by (pose proof (g_nonneg _ _ _ G i); lia). split.
      + destruct G as [A B C D F Ga]. constructor; auto. intros k Hk. destruct (Nat.eq_dec k i) as [->|]; [exact Hz|]. apply Ga. lia.
      + unfold clear_size. rewrite (Ag i), Hz. exact Ag.
  Qed.

  Lemma limit_agree P : forall n f b, (n <= 16)%nat -> good N b (16 + n) -> agree f b ->
    exists b', foldM (fun bits i => shorten_level P 257 i bits) (rev (seq 17 n)) b = Ret b' /\ agree (fold_left clear_size (rev (seq 17 n)) f) b'.
  Proof.
    induction n as [|n IH]; intros f b Hn G Ag.
    - exists b. split; [reflexivity|]. exact Ag.
    - rewrite seq_S, rev_app_distr. cbn [rev app foldM fold_left].
      assert (Hb : nth (17 + n) b 0 < 257).
      { pose proof (entry_le N b (17 + n) (g_len _ _ _ G) (g_nonneg _ _ _ G) (g_total _ _ _ G) ltac:(lia)). lia. }
      destruct (level_agree P (17 + n) ltac:(lia) 257 f b) as (b1 & E1 & G1 & A1); [|exact Ag|lia|].
      { replace (17 + n)%nat with (16 + S n)%nat by lia. exact G. }
      rewrite E1. cbn [bind]. apply IH; [lia| |exact A1]. replace (16 + n)%nat with (17 + n - 1)%nat by lia. exact G1.
  Qed.
End Levels.

(** ** The table *)
Section Table.
  Variable freq : list Z.
  Variable Hlen : length freq = 257%nat.
  Variable Hnn : forall s, 0 <= nth s freq 0.
  Variable Htot : fold_right Z.add 0 freq < 4294967296.
  Variable Hres : 0 < nth 256 freq 0.
  Variable Hused : (1 <= length (used freq) <= 254)%nat.

  Lemma optimized_is_annexK2 P t : emits (new_optimized P freq) [] t -> annexK2_table freq = (h_length t, h_values t).
  Proof.
    intros Em. destruct (made_by freq Hlen Hnn Htot Hres Hused P t Em) as (cs & bits & bits1 & i & M).
    assert (Hcs : forall v, code_size freq v = nth v cs 0).
    { apply (code_size_is freq Hlen Hnn (total_weight freq Hlen Hnn Htot Hused) P).
      - rewrite (live_length freq Hlen Hres). lia.
      - exact (m_cs _ _ _ _ _ _ _ M). }
    assert (Hc32 : forall v, 0 <= nth v cs 0 <= 32).
    { intros v. destruct (Z.eq_dec (w0 freq v) 0) as [E|E]; [rewrite (m_dead _ _ _ _ _ _ _ M v E); lia|].
      assert (0 < w0 freq v) as W by (specialize (Hnn v); unfold w0 in *; lia). pose proof (m_live _ _ _ _ _ _ _ M v W). lia. }
    assert (A0 : agree (count_codes freq) bits).
    { intros k. unfold count_codes. rewrite (filter_ext _ (fun v => (0 <? nth v cs 0) && (nth v cs 0 =? Z.of_nat k))) by (intros v; now rewrite Hcs).
      rewrite <- (lsum_one freq Hlen Hnn Hused), <- lsum_filter.
      destruct (Nat.lt_ge_cases k 33) as [H|H].
      - rewrite <- (wsum_at bits k) by lia. rewrite (m_wsum _ _ _ _ _ _ _ M).
        rewrite (psum_lsum freq Hlen Hnn Hused), (m_len _ _ _ _ _ _ _ M). apply lsum_ext. intros s _.
        specialize (Hc32 s). destruct (0 <? nth s cs 0); cbn [andb]; [|reflexivity].
        destruct (Z.eqb_spec (nth s cs 0) (Z.of_nat k)), (Nat.eq_dec (Z.to_nat (nth s cs 0)) k); try reflexivity; lia.
      - rewrite nth_overflow by (rewrite (g_len _ _ _ (m_bits _ _ _ _ _ _ _ M)); lia). apply lsum_zero. intros s _.
        specialize (Hc32 s). replace (nth s cs 0 =? Z.of_nat k) with false by lia. now rewrite andb_false_r. }
    destruct (limit_agree (Z.of_nat (S (length (used freq)))) ltac:(lia) P 16 (count_codes freq) bits (le_n _) (m_bits _ _ _ _ _ _ _ M) A0) as (b1 & E1 & A1).
    rewrite (m_limit _ _ _ _ _ _ _ M) in E1. injection E1 as <-.
    unfold annexK2_table. f_equal.
    - rewrite (m_lens _ _ _ _ _ _ _ M).
      pose proof (g_len _ _ _ (m_bits1 _ _ _ _ _ _ _ M)) as L1. pose proof (m_i _ _ _ _ _ _ _ M) as Hi.
      rewrite firstn_skipn_nth by (rewrite addat_length, L1; lia). apply map_ext_in. intros k Hk.
      unfold without_reserved, limited. rewrite (greatest_is _ bits1 i A1 (m_at _ _ _ _ _ _ _ M)); [| |lia].
      + rewrite only_dec, A1, nth_addat by (rewrite L1; lia). reflexivity.
      + intros k' Hk'. apply (m_above _ _ _ _ _ _ _ M). lia.
    - rewrite (m_vals _ _ _ _ _ _ _ M). unfold sort_values, zseg, zrange. rewrite !map_map, flat_map_concat_map.
      change (Z.to_nat (33 - 1)) with 32%nat. rewrite <- seq_shift, map_map. f_equal. apply map_ext. intros k.
      apply filter_ext. intros v. unfold zn. rewrite Hcs. f_equal. lia.
  Qed.
End Table.
