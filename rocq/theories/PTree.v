(** Figure K.1 (code_sizes_loop): merging the two least frequencies keeps a forest of full binary trees,
    with depths bounded by Fibonacci numbers. *)
From Verif Require Export PExec MHuffman.
From Verif Require Import PGreedy.
From Coq Require Import ZifyBool ZifyNat Permutation.

Fixpoint fib (n : nat) : Z :=
  match n with
  | O => 0
  | S m => match m with O => 1 | S k => fib m + fib k end
  end.
Lemma fib_SS n : fib (S (S n)) = fib (S n) + fib n.
Proof. reflexivity. Qed.
Lemma fib_nonneg n : 0 <= fib n /\ 0 <= fib (S n).
Proof.
  induction n as [|n IH]; [cbn; lia|]. split; [apply IH|]. rewrite fib_SS. lia.
Qed.
Lemma fib_pos n : 1 <= fib (S n).
Proof.
  induction n as [|n IH]; [cbn; lia|]. rewrite fib_SS. pose proof (fib_nonneg n). lia.
Qed.
Lemma fib_mono n m : (n <= m)%nat -> fib n <= fib m.
Proof.
  induction 1 as [|m H IH]; [lia|]. destruct m as [|m]; [pose proof (fib_nonneg 0); destruct n; cbn in *; lia|].
  rewrite fib_SS. pose proof (fib_nonneg m). lia.
Qed.

(** Sums over lists of indices *)
Definition lsum (f : nat -> Z) (l : list nat) : Z := fold_right (fun s a => f s + a) 0 l.
Lemma lsum_app f a b : lsum f (a ++ b) = lsum f a + lsum f b.
Proof. induction a as [|x a IH]; cbn [lsum fold_right app]; [reflexivity|]. fold (lsum f (a ++ b)) (lsum f a). lia. Qed.
Lemma lsum_ext f g l : (forall s, In s l -> f s = g s) -> lsum f l = lsum g l.
Proof.
  induction l as [|x l IH]; intros H; [reflexivity|]. cbn [lsum fold_right].
  fold (lsum f l) (lsum g l). rewrite IH by (intros s Hs; apply H; now right). rewrite (H x) by now left. reflexivity.
Qed.
Lemma lsum_perm f a b : Permutation a b -> lsum f a = lsum f b.
Proof.
  induction 1; cbn [lsum fold_right]; repeat match goal with |- context [fold_right (fun s a => f s + a) 0 ?l] => fold (lsum f l) end; lia.
Qed.
Lemma lsum_nonneg f l : (forall s, In s l -> 0 <= f s) -> 0 <= lsum f l.
Proof.
  induction l as [|x l IH]; intros H; cbn [lsum fold_right]; [lia|]. fold (lsum f l).
  pose proof (H x (or_introl eq_refl)). assert (0 <= lsum f l) by (apply IH; intros s Hs; apply H; now right). lia.
Qed.
Lemma lsum_incl f a : forall b, NoDup a -> incl a b -> (forall s, In s b -> 0 <= f s) -> lsum f a <= lsum f b.
Proof.
  induction a as [|x a IH]; intros b Hn Hi Hp; [apply lsum_nonneg; exact Hp|].
  inversion Hn as [|? ? Hx Hn']; subst.
  destruct (in_split x b (Hi x (or_introl eq_refl))) as (b1 & b2 & ->).
  assert (E : lsum f (b1 ++ x :: b2) = f x + lsum f (b1 ++ b2)).
  { rewrite !lsum_app. cbn [lsum fold_right]. fold (lsum f b2). lia. }
  rewrite E. cbn [lsum fold_right]. fold (lsum f a).
  enough (lsum f a <= lsum f (b1 ++ b2)) by lia.
  apply IH; [exact Hn'| |].
  - intros y Hy. assert (Hy' := Hi y (or_intror Hy)). apply in_app_or in Hy'. apply in_or_app.
    destruct Hy' as [|[->|]]; [now left|contradiction|now right].
  - intros s Hs. apply Hp. apply in_app_or in Hs. apply in_or_app. destruct Hs; [now left|right; now right].
Qed.
Lemma lsum_scale k f l : lsum (fun s => k * f s) l = k * lsum f l.
Proof. induction l as [|x l IH]; cbn [lsum fold_right]; [lia|]. fold (lsum f l) (lsum (fun s => k * f s) l). lia. Qed.

(** ** find_least *)
Definition elig (skip : option nat) (i : nat) (l : list Z) (k : nat) : Prop :=
  (k < length l)%nat /\ 0 < nth k l 0 /\ skip <> Some (i + k)%nat.

Lemma find_least_spec skip l : forall i v vmin,
  (exists k, find_least skip l i v vmin = Some (i + k)%nat /\ elig skip i l k /\ nth k l 0 <= vmin /\
     forall k', elig skip i l k' -> nth k l 0 <= nth k' l 0)
  \/ (find_least skip l i v vmin = v /\ forall k, elig skip i l k -> vmin < nth k l 0).
Proof.
  induction l as [|f l IH]; intros i v vmin.
  - right. split; [reflexivity|]. intros k (H & _). cbn in H. lia.
  - cbn [find_least].
    assert (Sh : forall k, elig skip i (f :: l) (S k) -> elig skip (S i) l k).
    { intros k (H1 & H2 & H3). cbn [length nth] in *. repeat split; [lia|exact H2|]. now rewrite Nat.add_succ_comm. }
    assert (Sh' : forall k, elig skip (S i) l k -> elig skip i (f :: l) (S k)).
    { intros k (H1 & H2 & H3). cbn [length nth] in *. repeat split; cbn [length nth]; [lia|exact H2|]. now rewrite <- Nat.add_succ_comm. }
    destruct ((0 <? f) && (f <=? vmin) && negb (match skip with Some s => (i =? s)%nat | None => false end)) eqn:E.
    + assert (Hsk : skip <> Some i). { destruct skip as [s|]; [|discriminate]. intros [= ->]. lia. }
      assert (E0 : elig skip i (f :: l) 0). { repeat split; cbn [length nth]; [lia|lia|now rewrite Nat.add_0_r]. }
      left. destruct (IH (S i) (Some i) f) as [(k & Hr & He & Hle & Hmin)|[Hr Hmin]].
      * exists (S k). split; [rewrite Hr; f_equal; lia|]. split; [now apply Sh'|]. cbn [nth]. split; [lia|].
        intros [|k'] Hk'; cbn [nth]; [exact Hle|]. apply Hmin. now apply Sh.
      * exists 0%nat. split; [rewrite Hr; f_equal; lia|]. split; [exact E0|]. cbn [nth]. split; [lia|].
        intros [|k'] Hk'; cbn [nth]; [lia|]. specialize (Hmin k' (Sh _ Hk')). lia.
    + assert (N0 : elig skip i (f :: l) 0 -> vmin < f).
      { intros (_ & H2 & H3). cbn [nth] in H2. rewrite Nat.add_0_r in H3.
        destruct skip as [s|]; [|lia]. destruct (Nat.eqb_spec i s) as [->|]; [now contradiction H3|]. cbn [negb] in E. lia. }
      destruct (IH (S i) v vmin) as [(k & Hr & He & Hle & Hmin)|[Hr Hmin]].
      * left. exists (S k). split; [rewrite Hr; f_equal; lia|]. split; [now apply Sh'|]. cbn [nth]. split; [exact Hle|].
        intros [|k'] Hk'; cbn [nth]; [specialize (N0 Hk'); lia|]. apply Hmin. now apply Sh.
      * right. split; [exact Hr|]. intros [|k'] Hk'; cbn [nth]; [now apply N0|]. apply Hmin. now apply Sh.
Qed.

(** ** Chains in [others] *)
Fixpoint linked (others : list Z) (l : list nat) : Prop :=
  match l with
  | [] => False
  | v :: t => match t with
              | [] => nth v others (-1) = -1
              | v' :: _ => nth v others (-1) = Z.of_nat v' /\ linked others t
              end
  end.
Definition head (l : list nat) : nat := hd 0%nat l.

Lemma linked_cons others v v' t : linked others (v :: v' :: t) <-> nth v others (-1) = Z.of_nat v' /\ linked others (v' :: t).
Proof. reflexivity. Qed.

Lemma bump_chain_spec others : forall l fuel cs, linked others l -> NoDup l -> (length l <= fuel)%nat ->
  Forall (fun s => s < length cs)%nat l ->
  exists cs', bump_chain fuel others cs (head l) = Ret (cs', last l 0%nat) /\ length cs' = length cs /\
    forall i, nth i cs' 0 = nth i cs 0 + (if in_dec Nat.eq_dec i l then 1 else 0).
Proof.
  induction l as [|v t IH]; intros fuel cs Hl Hn Hf Hb; [destruct Hl|].
  destruct fuel as [|fuel]; [cbn in Hf; lia|].
  inversion Hn as [|? ? Hv Hn']; subst. inversion Hb as [|? ? Hbv Hb']; subst.
  cbn [head hd bump_chain].
  assert (U : forall i, nth i (upd cs v (nth v cs 0 + 1)) 0 = nth i cs 0 + (if Nat.eq_dec v i then 1 else 0)).
  { intros i. rewrite nth_upd. replace (v <? length cs)%nat with true by lia.
    destruct (Nat.eq_dec v i) as [->|Ne]; [rewrite Nat.eqb_refl; reflexivity|].
    replace (v =? i)%nat with false by lia. cbn [andb]. lia. }
  destruct t as [|v' t].
  - cbn [linked] in Hl. rewrite Hl. cbn [Z.leb Z.compare]. exists (upd cs v (nth v cs 0 + 1)).
    split; [reflexivity|]. split; [apply upd_length|]. intros i. rewrite U.
    destruct (in_dec Nat.eq_dec i [v]) as [Hi|Hi]; cbn [In] in Hi; destruct (Nat.eq_dec v i); try lia; tauto.
  - apply linked_cons in Hl as [Ho Hl]. rewrite Ho. replace (0 <=? Z.of_nat v') with true by lia. rewrite Nat2Z.id.
    destruct (IH fuel (upd cs v (nth v cs 0 + 1)) Hl Hn' ltac:(cbn [length] in *; lia)) as (cs' & E & El & En).
    { rewrite upd_length. exact Hb'. }
    cbn [head hd] in E. exists cs'. split; [rewrite E; reflexivity|]. rewrite upd_length in El. split; [exact El|].
    intros i. rewrite En, U.
    destruct (in_dec Nat.eq_dec i (v :: v' :: t)) as [Hi|Hi], (in_dec Nat.eq_dec i (v' :: t)) as [Hi'|Hi'], (Nat.eq_dec v i) as [Ei|Ei];
      try lia; exfalso; subst; cbn [In] in *; tauto.
Qed.

Lemma linked_upd others l k x : linked others l -> ~ In k l -> linked (upd others k x) l.
Proof.
  induction l as [|v t IH]; intros Hl Hk; [exact Hl|].
  assert (E : nth v (upd others k x) (-1) = nth v others (-1)).
  { rewrite nth_upd. replace (k =? v)%nat with false; [reflexivity|]. symmetry. apply Nat.eqb_neq. intros ->. apply Hk. now left. }
  destruct t as [|v' t].
  - cbn [linked] in *. now rewrite E.
  - apply linked_cons in Hl as [Ho Hl]. apply linked_cons. rewrite E. split; [exact Ho|]. apply IH; [exact Hl|].
    intros H. apply Hk. now right.
Qed.

Lemma last_in v t : In (last (v :: t) 0%nat) (v :: t).
Proof. revert v. induction t as [|w t IH]; intros v; [now left|]. right. apply IH. Qed.

Lemma linked_app others l1 l2 : linked others l1 -> linked others l2 -> NoDup (l1 ++ l2) ->
  (last l1 0 < length others)%nat -> linked (upd others (last l1 0%nat) (Z.of_nat (head l2))) (l1 ++ l2).
Proof.
  intros H1 H2 Hn Hb. set (k := last l1 0%nat) in *.
  assert (L2 : linked (upd others k (Z.of_nat (head l2))) l2).
  { apply linked_upd; [exact H2|]. intros Hk. assert (Hk1 : In k l1).
    { unfold k. destruct l1 as [|v t]; [destruct H1|]. apply last_in. }
    clearbody k. clear - Hn Hk Hk1. induction l1 as [|x l1 IH]; [destruct Hk1|]. inversion Hn as [|? ? Hx Hn']; subst.
    destruct Hk1 as [->|Hk1]; [apply Hx, in_or_app; now right|now apply IH]. }
  revert Hb L2. unfold k. clear k. induction l1 as [|v t IH]; intros Hb L2; [destruct H1|].
  destruct t as [|v' t].
  - cbn [last app] in *. destruct l2 as [|w l2]; [destruct H2|]. apply linked_cons. split; [|exact L2].
    rewrite nth_upd, Nat.eqb_refl. replace (v <? length others)%nat with true by lia. reflexivity.
  - apply linked_cons in H1 as [Ho H1]. change ((v :: v' :: t) ++ l2) with (v :: (v' :: t) ++ l2) in *.
    inversion Hn as [|? ? Hv Hn']; subst.
    change (last (v :: v' :: t) 0%nat) with (last (v' :: t) 0%nat) in *.
    specialize (IH H1 Hn' Hb L2). change ((v' :: t) ++ l2) with (v' :: t ++ l2) in *. apply linked_cons. split; [|exact IH].
    rewrite nth_upd.
    destruct (Nat.eqb_spec (last (v' :: t) 0%nat) v) as [E|E]; [|exact Ho].
    exfalso. apply Hv. rewrite <- E. change (v' :: t ++ l2) with ((v' :: t) ++ l2). apply in_or_app. left.
    apply last_in.
Qed.

(** ** The loop *)
Fixpoint fibs (n : nat) : Z * Z := match n with O => (0, 1) | S m => let '(a, b) := fibs m in (b, a + b) end.
Lemma fibs_eq n : fibs n = (fib n, fib (S n)).
Proof. induction n as [|n IH]; [reflexivity|]. cbn [fibs]. rewrite IH, fib_SS. f_equal. lia. Qed.
Lemma fib_is n v : fst (fibs n) = v -> fib n = v.
Proof. rewrite fibs_eq. cbn [fst]. auto. Qed.
Lemma fib_35 : fib 35 = 9227465.
Proof. apply fib_is. vm_compute. reflexivity. Qed.
Lemma fib_48 : fib 48 = 4807526976.
Proof. apply fib_is. vm_compute. reflexivity. Qed.

(* [easy] inverts hypotheses, which would evaluate bump_chain. *)
Local Ltac easy ::= solve [assumption | reflexivity | symmetry; assumption | split; assumption | constructor | tauto | congruence].

Section Loop.
  Variable orig : list Z.
  Definition w0 (s : nat) : Z := nth s orig 0.
  Definition weight (l : list nat) : Z := lsum w0 l.
  Variable Hlen : length orig = 257%nat.
  Variable Hnn : forall s, 0 <= w0 s.
  Variable Htot : weight (seq 0 257) < 4294967296.

  Record inv (freq others cs : list Z) (m : Z) (F : list (list nat)) : Prop := {
    i_freq : length freq = 257%nat;
    i_others : length others = 257%nat;
    i_cs : length cs = 257%nat;
    i_nodup : NoDup (concat F);
    i_bound : Forall (fun s => s < 257)%nat (concat F);
    i_linked : Forall (linked others) F;
    i_heads : forall i, 0 < nth i freq 0 <-> In i (map head F);
    i_nonneg : forall i, 0 <= nth i freq 0;
    i_weight : forall l, In l F -> nth (head l) freq 0 = weight l;
    i_kraft : forall l, In l F -> lsum (fun s => 2 ^ (45 - nth s cs 0)) l = 2 ^ 45;
    i_depth : forall l s, In l F -> In s l -> 0 <= nth s cs 0 <= 45 /\
                fib (Z.to_nat (nth s cs 0%Z) + 2) <= weight l /\
                (1 <= nth s cs 0 -> fib (Z.to_nat (nth s cs 0%Z) + 1) <= m);
    i_min : forall l, In l F -> m <= weight l;
    i_m : 0 <= m;
    i_live : forall i, In i (concat F) <-> 0 < w0 i;
    i_dead : forall i, ~ In i (concat F) -> nth i cs 0 = 0
  }.

  Lemma weight_total l : NoDup l -> Forall (fun s => s < 257)%nat l -> weight l <= weight (seq 0 257).
  Proof.
    intros Hn Hb. apply lsum_incl; [exact Hn| |intros; apply Hnn].
    intros s Hs. rewrite Forall_forall in Hb. apply in_seq. specialize (Hb s Hs). lia.
  Qed.

  Lemma linked_head others l : linked others l -> In (head l) l.
  Proof. destruct l; [intros []|now left]. Qed.

  (** Permuting the forest *)
  Lemma inv_perm freq others cs m F F' : Permutation F F' -> inv freq others cs m F -> inv freq others cs m F'.
  Proof.
    intros Hp [].
    assert (Hc : Permutation (concat F) (concat F')).
    { clear - Hp. induction Hp; cbn [concat]; [constructor|now apply Permutation_app_head| |now transitivity (concat l')].
      rewrite !app_assoc. apply Permutation_app_tail, Permutation_app_comm. }
    assert (Hin : forall l, In l F' -> In l F) by (intros l; apply Permutation_in; now symmetry).
    constructor; auto.
    - eapply Permutation_NoDup; eassumption.
    - eapply Permutation_Forall; eassumption.
    - eapply Permutation_Forall; eassumption.
    - intros i. rewrite i_heads0. split; apply Permutation_in; [|symmetry]; now apply Permutation_map.
    - intros i. rewrite <- i_live0. split; apply Permutation_in; [symmetry|]; assumption.
    - intros i H. apply i_dead0. intros H'. apply H. eapply Permutation_in; eassumption.
  Qed.

  Lemma NoDup_app_inv {A} (a b : list A) : NoDup (a ++ b) -> NoDup a /\ NoDup b /\ forall x, In x a -> In x b -> False.
  Proof.
    induction a as [|x a IH]; cbn [app]; intros H; [split; [constructor|split; [exact H|intros ? []]]|].
    inversion H as [|? ? Hx Hn]; subst. destruct (IH Hn) as (Ha & Hb & Hd).
    split; [constructor; [intros Hi; apply Hx, in_or_app; now left|exact Ha]|]. split; [exact Hb|].
    intros y [->|Hy] Hy'; [apply Hx, in_or_app; now right|now apply (Hd y)].
  Qed.

  (** Bits spent *)
  Definition spent (cs : list Z) : Z := lsum (fun s => w0 s * nth s cs 0) (seq 0 257).
  Lemma lsum_plus f g l : lsum (fun s => f s + g s) l = lsum f l + lsum g l.
  Proof. induction l as [|x l IH]; cbn [lsum fold_right]; [lia|]. fold (lsum f l) (lsum g l) (lsum (fun s => f s + g s) l). lia. Qed.
  Lemma lsum_mem f l : NoDup l -> Forall (fun s => s < 257)%nat l ->
    lsum (fun s => f s * (if in_dec Nat.eq_dec s l then 1 else 0)) (seq 0 257) = lsum f l.
  Proof.
    intros Hn Hb.
    assert (G : forall m, lsum (fun s => f s * (if in_dec Nat.eq_dec s l then 1 else 0)) m = lsum f (filter (fun s => if in_dec Nat.eq_dec s l then true else false) m)).
    { induction m as [|x m IH]; [reflexivity|]. cbn [filter]. cbn [lsum fold_right].
      fold (lsum (fun s => f s * (if in_dec Nat.eq_dec s l then 1 else 0)) m). rewrite IH.
      destruct (in_dec Nat.eq_dec x l); cbn [lsum fold_right]; [|lia]. fold (lsum f (filter (fun s => if in_dec Nat.eq_dec s l then true else false) m)). lia. }
    rewrite G. apply lsum_perm. apply NoDup_Permutation; [apply NoDup_filter, seq_NoDup|exact Hn|].
    intros i. rewrite filter_In, in_seq. destruct (in_dec Nat.eq_dec i l) as [H|H]; [|split; [intros [_ E]; discriminate|tauto]].
    split; [intros _; exact H|]. intros _. rewrite Forall_forall in Hb. specialize (Hb i H). split; [lia|reflexivity].
  Qed.

  (** One merge *)
  Lemma merge freq others cs m l1 l2 F :
    inv freq others cs m (l1 :: l2 :: F) ->
    weight l1 <= weight l2 -> (forall l, In l F -> weight l2 <= weight l) ->
    exists cs1 cs2,
      bump_chain 258 others cs (head l1) = Ret (cs1, last l1 0%nat) /\
      bump_chain 258 (upd others (last l1 0%nat) (Z.of_nat (head l2))) cs1 (head l2) = Ret (cs2, last l2 0%nat) /\
      inv (upd (upd freq (head l1) (nth (head l1) freq 0 + nth (head l2) freq 0)) (head l2) 0)
          (upd others (last l1 0%nat) (Z.of_nat (head l2))) cs2 (weight l2) ((l1 ++ l2) :: F) /\
      spent cs2 = spent cs + (weight l1 + weight l2).
  Proof.
    intros Hinv H12 Hmin. destruct Hinv as [If Io Ic In_ Ib Il Ih Inn Iw Ik Id Im Im0 Ilv Idd].
    cbn [concat] in *. rewrite app_assoc in In_, Ib.
    inversion Il as [|? ? L1 Il1]; subst. inversion Il1 as [|? ? L2 Il2]; subst.
    destruct (NoDup_app_inv _ _ In_) as (N12 & NF & D12F).
    destruct (NoDup_app_inv _ _ N12) as (N1 & N2 & D12).
    apply Forall_app in Ib as [B12 BF]. assert (B12' := B12). apply Forall_app in B12 as [B1 B2].
    assert (Len1 : (length l1 <= 257)%nat).
    { transitivity (length (seq 0 257)); [|rewrite seq_length; lia]. apply NoDup_incl_length; [exact N1|].
      intros s Hs. rewrite Forall_forall in B1. apply in_seq. specialize (B1 s Hs). lia. }
    assert (Len2 : (length l2 <= 257)%nat).
    { transitivity (length (seq 0 257)); [|rewrite seq_length; lia]. apply NoDup_incl_length; [exact N2|].
      intros s Hs. rewrite Forall_forall in B2. apply in_seq. specialize (B2 s Hs). lia. }
    destruct (bump_chain_spec others l1 258 cs L1 N1 ltac:(lia)) as (cs1 & E1 & El1 & En1); [now rewrite Ic|].
    assert (Hlast1 : In (last l1 0%nat) l1) by (destruct l1; [destruct L1|apply last_in]).
    assert (Hl1b : (last l1 0 < length others)%nat).
    { rewrite Io. rewrite Forall_forall in B1. exact (B1 _ Hlast1). }
    set (others' := upd others (last l1 0%nat) (Z.of_nat (head l2))).
    assert (L2' : linked others' l2).
    { apply linked_upd; [exact L2|]. intros H. exact (D12 _ Hlast1 H). }
    destruct (bump_chain_spec others' l2 258 cs1 L2' N2 ltac:(lia)) as (cs2 & E2 & El2 & En2); [now rewrite El1, Ic|].
    exists cs1, cs2. split; [exact E1|]. split; [exact E2|].
    assert (Hcs : forall i, nth i cs2 0 = nth i cs 0 + (if in_dec Nat.eq_dec i (l1 ++ l2) then 1 else 0)).
    { intros i. rewrite En2, En1.
      destruct (in_dec Nat.eq_dec i (l1 ++ l2)) as [H|H], (in_dec Nat.eq_dec i l1) as [H1|H1], (in_dec Nat.eq_dec i l2) as [H2|H2];
        try lia; exfalso; rewrite in_app_iff in H; try tauto; exact (D12 i H1 H2). }
    enough (Hmain : inv (upd (upd freq (head l1) (nth (head l1) freq 0 + nth (head l2) freq 0)) (head l2) 0) others' cs2 (weight l2) ((l1 ++ l2) :: F)).
    { split; [exact Hmain|]. unfold spent. rewrite (lsum_ext _ (fun s => w0 s * nth s cs 0 + w0 s * (if in_dec Nat.eq_dec s (l1 ++ l2) then 1 else 0))).
      - rewrite lsum_plus, lsum_mem by assumption. rewrite lsum_app. reflexivity.
      - intros s _. rewrite Hcs. lia. }
    assert (Hh1 : In (head l1) l1) by now apply (linked_head others).
    assert (Hh2 : In (head l2) l2) by now apply (linked_head others).
    assert (Hb1 : (head l1 < 257)%nat) by (rewrite Forall_forall in B1; exact (B1 _ Hh1)).
    assert (Hb2 : (head l2 < 257)%nat) by (rewrite Forall_forall in B2; exact (B2 _ Hh2)).
    assert (Hne : head l1 <> head l2) by (intros E; rewrite E in Hh1; exact (D12 _ Hh1 Hh2)).
    set (freq' := upd (upd freq (head l1) (nth (head l1) freq 0 + nth (head l2) freq 0)) (head l2) 0).
    assert (Hf : forall i, nth i freq' 0 = if Nat.eq_dec i (head l2) then 0 else
                   if Nat.eq_dec i (head l1) then weight l1 + weight l2 else nth i freq 0).
    { intros i. unfold freq'. rewrite !nth_upd, upd_length, If.
      replace (head l2 <? 257)%nat with true by lia. replace (head l1 <? 257)%nat with true by lia. rewrite !andb_true_r.
      destruct (Nat.eq_dec i (head l2)) as [->|]; [now rewrite Nat.eqb_refl|]. replace (head l2 =? i)%nat with false by lia.
      destruct (Nat.eq_dec i (head l1)) as [->|]; [rewrite Nat.eqb_refl|now replace (head l1 =? i)%nat with false by lia].
      rewrite (Iw l1), (Iw l2) by (cbn [In]; tauto). reflexivity. }
    assert (W12 : weight (l1 ++ l2) = weight l1 + weight l2) by apply lsum_app.
    assert (Wpos : forall l, In l (l1 :: l2 :: F) -> 0 < weight l).
    { intros l Hl. rewrite <- (Iw l Hl). apply Ih. now apply in_map. }
    assert (W1 := Wpos l1 (or_introl eq_refl)). assert (W2 := Wpos l2 (or_intror (or_introl eq_refl))).
    assert (Wt : weight (l1 ++ l2) < 4294967296).
    { eapply Z.le_lt_trans; [|exact Htot]. now apply weight_total. }
    assert (HF12 : forall l s, In l F -> In s l -> ~ In s (l1 ++ l2)).
    { intros l s Hl Hs H. apply (D12F s H). apply in_concat. now exists l. }
    assert (HcsF : forall l s, In l F -> In s l -> nth s cs2 0 = nth s cs 0).
    { intros l s Hl Hs. rewrite Hcs. destruct (in_dec Nat.eq_dec s (l1 ++ l2)) as [H|H]; [|lia].
      exfalso. exact (HF12 l s Hl Hs H). }
    assert (HcsL : forall s, In s (l1 ++ l2) -> nth s cs2 0 = nth s cs 0 + 1).
    { intros s Hs. rewrite Hcs. destruct (in_dec Nat.eq_dec s (l1 ++ l2)) as [H|H]; [reflexivity|contradiction]. }
    (* depth of the new tree *)
    assert (Dep : forall s, In s (l1 ++ l2) -> 0 <= nth s cs 0 /\
       fib (Z.to_nat (nth s cs 0%Z) + 3) <= weight (l1 ++ l2) /\ fib (Z.to_nat (nth s cs 0%Z) + 2) <= weight l2).
    { intros s Hs. rewrite W12. apply in_app_or in Hs as [Hs|Hs].
      - destruct (Id l1 s (or_introl eq_refl) Hs) as (A & B & C). split; [lia|].
        replace (Z.to_nat (nth s cs 0%Z) + 3)%nat with (S (S (Z.to_nat (nth s cs 0%Z) + 1)))%nat by lia. rewrite fib_SS.
        replace (S (Z.to_nat (nth s cs 0%Z) + 1))%nat with (Z.to_nat (nth s cs 0%Z) + 2)%nat by lia.
        split; [|lia].
        assert (fib (Z.to_nat (nth s cs 0%Z) + 1) <= weight l2); [|lia].
        destruct (Z_le_gt_dec 1 (nth s cs 0)) as [H1|H1].
        + specialize (C H1). specialize (Im l2 (or_intror (or_introl eq_refl))). lia.
        + replace (nth s cs 0) with 0 by lia. cbn. lia.
      - destruct (Id l2 s (or_intror (or_introl eq_refl)) Hs) as (A & B & C). split; [lia|].
        replace (Z.to_nat (nth s cs 0%Z) + 3)%nat with (S (S (Z.to_nat (nth s cs 0%Z) + 1)))%nat by lia. rewrite fib_SS.
        replace (S (Z.to_nat (nth s cs 0%Z) + 1))%nat with (Z.to_nat (nth s cs 0%Z) + 2)%nat by lia.
        split; [|lia].
        assert (fib (Z.to_nat (nth s cs 0%Z) + 1) <= weight l1); [|lia].
        destruct (Z_le_gt_dec 1 (nth s cs 0)) as [H1|H1].
        + specialize (C H1). specialize (Im l1 (or_introl eq_refl)). lia.
        + replace (nth s cs 0) with 0 by lia. cbn. lia. }
    assert (Dep32 : forall s, In s (l1 ++ l2) -> nth s cs 0 <= 44).
    { intros s Hs. destruct (Dep s Hs) as (A & B & _).
      destruct (Z_le_gt_dec (nth s cs 0) 44) as [|G]; [assumption|exfalso].
      assert (fib 48 <= fib (Z.to_nat (nth s cs 0%Z) + 3)) as G48 by (apply fib_mono; lia). rewrite fib_48 in G48. lia. }
    constructor.
    - unfold freq'. now rewrite !upd_length.
    - unfold others'. now rewrite upd_length.
    - now rewrite El2, El1.
    - cbn [concat]. exact In_.
    - cbn [concat]. apply Forall_app. now split.
    - constructor.
      + apply linked_app; assumption.
      + apply Forall_forall. intros l Hl. rewrite Forall_forall in Il2. apply linked_upd; [now apply Il2|].
        intros H. apply (HF12 l _ Hl H). apply in_or_app. now left.
    - intros i. rewrite Hf. cbn [map In]. assert (Hhd : head (l1 ++ l2) = head l1) by (destruct l1; [destruct L1|reflexivity]).
      rewrite Hhd. destruct (Nat.eq_dec i (head l2)) as [->|N2'].
      + split; [lia|]. intros [E|H]; [congruence|]. exfalso.
        apply in_map_iff in H as (l & E & Hl). rewrite Forall_forall in Il2.
        pose proof (linked_head others l (Il2 l Hl)) as Hhl. rewrite E in Hhl. apply (HF12 l _ Hl Hhl). apply in_or_app. now right.
      + destruct (Nat.eq_dec i (head l1)) as [->|N1'].
        * split; [now left|lia].
        * rewrite (Ih i). cbn [map In]. split; [intros [E|[E|H]]; [congruence|congruence|now right]|intros [E|H]; [congruence|now right; right]].
    - intros i. rewrite Hf. destruct (Nat.eq_dec i (head l2)); [lia|]. destruct (Nat.eq_dec i (head l1)); [lia|apply Inn].
    - intros l [<-|Hl].
      + assert (Hhd : head (l1 ++ l2) = head l1) by (destruct l1; [destruct L1|reflexivity]).
        rewrite Hhd, Hf, W12. destruct (Nat.eq_dec (head l1) (head l2)); [congruence|].
        destruct (Nat.eq_dec (head l1) (head l1)); [reflexivity|congruence].
      + rewrite Hf. rewrite Forall_forall in Il2. pose proof (linked_head others l (Il2 l Hl)) as Hhl.
        pose proof (HF12 l _ Hl Hhl) as Hni. rewrite in_app_iff in Hni.
        destruct (Nat.eq_dec (head l) (head l2)) as [E|]; [exfalso; rewrite E in Hni; tauto|].
        destruct (Nat.eq_dec (head l) (head l1)) as [E|]; [exfalso; rewrite E in Hni; tauto|].
        apply Iw. now right; right.
    - intros l [<-|Hl].
      + rewrite lsum_app.
        assert (Hhalf : forall l, (forall s, In s l -> In s (l1 ++ l2)) ->
          2 * lsum (fun s => 2 ^ (45 - nth s cs2 0)) l = lsum (fun s => 2 ^ (45 - nth s cs 0)) l).
        { intros l Hi. rewrite <- lsum_scale. apply lsum_ext. intros s Hs. rewrite (HcsL s (Hi s Hs)).
          specialize (Dep32 s (Hi s Hs)). rewrite <- Z.pow_succ_r by lia. f_equal. lia. }
        pose proof (Hhalf l1 ltac:(intros; apply in_or_app; now left)) as G1.
        pose proof (Hhalf l2 ltac:(intros; apply in_or_app; now right)) as G2.
        rewrite (Ik l1) in G1 by now left. rewrite (Ik l2) in G2 by (right; now left). lia.
      + rewrite <- (Ik l) by (right; now right). apply lsum_ext. intros s Hs. now rewrite (HcsF l s Hl Hs).
    - intros l s [<-|Hl] Hs.
      + rewrite (HcsL s Hs). destruct (Dep s Hs) as (A & B & C). specialize (Dep32 s Hs).
        replace (Z.to_nat (nth s cs 0%Z + 1) + 2)%nat with (Z.to_nat (nth s cs 0%Z) + 3)%nat by lia.
        replace (Z.to_nat (nth s cs 0%Z + 1) + 1)%nat with (Z.to_nat (nth s cs 0%Z) + 2)%nat by lia.
        repeat split; try lia.
      + rewrite (HcsF l s Hl Hs). destruct (Id l s (or_intror (or_intror Hl)) Hs) as (A & B & C).
        repeat split; try lia. intros H1. specialize (C H1). specialize (Im l2 (or_intror (or_introl eq_refl))). lia.
    - intros l [<-|Hl]; [lia|now apply Hmin].
    - lia.
    - intros i. rewrite <- Ilv. cbn [concat]. rewrite app_assoc. reflexivity.
    - intros i Hi. cbn [concat] in Hi. rewrite Hcs.
      destruct (in_dec Nat.eq_dec i (l1 ++ l2)) as [H|H]; [exfalso; apply Hi, in_or_app; now left|].
      rewrite Idd; [reflexivity|]. rewrite app_assoc. exact Hi.
  Qed.

  Lemma code_sizes_inv P : forall fuel freq others cs m F,
    inv freq others cs m F -> (length F <= fuel)%nat -> (0 < fuel)%nat ->
    exists cs' freq' others' m' F', code_sizes_loop P fuel freq others cs = Ret cs' /\
      inv freq' others' cs' m' F' /\ (length F' <= 1)%nat /\
      exists c, greedy (map weight F) c /\ spent cs' = spent cs + c.
  Proof.
    induction fuel as [|fuel IH]; intros freq others cs m F Hinv Hf H0; [lia|].
    cbn [code_sizes_loop]. assert (Hi := Hinv). destruct Hi as [If Io Ic In_ Ib Il Ih Inn Iw Ik Id Im Im0 Ilv Idd].
    assert (Bnd : forall i, nth i freq 0 <= U32_MAX).
    { intros i. destruct (Z_le_gt_dec (nth i freq 0) 0) as [|G]; [unfold U32_MAX; lia|].
      apply Z.gt_lt, Ih, in_map_iff in G as (l & <- & Hl). rewrite (Iw l Hl).
      assert (weight l < 4294967296).
      { eapply Z.le_lt_trans; [apply weight_total|exact Htot].
        - clear - In_ Hl. induction F as [|x F IHF]; [destruct Hl|]. cbn [concat] in In_.
          apply NoDup_app_inv in In_ as (A & B & _). destruct Hl as [->|Hl]; [exact A|now apply IHF].
        - apply Forall_forall. intros s Hs. rewrite Forall_forall in Ib. apply Ib. apply in_concat. now exists l. }
      unfold U32_MAX. lia. }
    assert (Pick : forall skip i, find_least skip freq 0 None U32_MAX = Some i ->
      0 < nth i freq 0 /\ skip <> Some i /\ forall i', 0 < nth i' freq 0 -> skip <> Some i' -> nth i freq 0 <= nth i' freq 0).
    { intros skip i E. destruct (find_least_spec skip freq 0 None U32_MAX) as [(k & Ek & (A & B & C) & _ & Hmin)|[Ek _]]; [|congruence].
      rewrite E in Ek. injection Ek as Ek. cbn [Nat.add] in *. subst k. repeat split; [exact B|exact C|].
      intros i' Hi' Hs. apply Hmin. repeat split; [|exact Hi'|exact Hs].
      destruct (Nat.lt_ge_cases i' (length freq)) as [|G]; [assumption|]. rewrite nth_overflow in Hi' by exact G. lia. }
    assert (NoPick : forall skip, find_least skip freq 0 None U32_MAX = None -> forall i, 0 < nth i freq 0 -> skip = Some i).
    { intros skip E i Hi. destruct (find_least_spec skip freq 0 None U32_MAX) as [(k & Ek & _)|[_ Hmin]]; [congruence|].
      destruct skip as [s|].
      - destruct (Nat.eq_dec s i) as [->|Ne]; [reflexivity|]. exfalso.
        specialize (Hmin i). specialize (Bnd i). assert (U32_MAX < nth i freq 0); [|lia]. apply Hmin.
        repeat split; [|exact Hi|cbn [Nat.add]; congruence].
        destruct (Nat.lt_ge_cases i (length freq)) as [|G]; [assumption|]. rewrite nth_overflow in Hi by exact G. lia.
      - exfalso. specialize (Hmin i). specialize (Bnd i). assert (U32_MAX < nth i freq 0); [|lia]. apply Hmin.
        repeat split; [|exact Hi|discriminate].
        destruct (Nat.lt_ge_cases i (length freq)) as [|G]; [assumption|]. rewrite nth_overflow in Hi by exact G. lia. }
    destruct (find_least None freq 0 None U32_MAX) as [v1|] eqn:E1.
    2:{ exists cs, freq, others, m, F. split; [reflexivity|]. split; [exact Hinv|].
        enough (HF : (length F <= 1)%nat).
        { split; [exact HF|]. exists 0. split; [apply g_done; rewrite map_length; exact HF|lia]. }
        destruct F as [|l F]; [cbn; lia|]. exfalso.
        assert (G : 0 < nth (head l) freq 0) by (apply Ih; now left). specialize (NoPick None E1 _ G). discriminate. }
    destruct (Pick None v1 E1) as (P1 & _ & M1).
    destruct (find_least (Some v1) freq 0 None U32_MAX) as [v2|] eqn:E2.
    2:{ exists cs, freq, others, m, F. split; [reflexivity|]. split; [exact Hinv|].
        enough (HF : (length F <= 1)%nat).
        { split; [exact HF|]. exists 0. split; [apply g_done; rewrite map_length; exact HF|lia]. }
        destruct F as [|l [|l' F]]; [cbn; lia|cbn; lia|]. exfalso.
        assert (G : 0 < nth (head l) freq 0) by (apply Ih; now left). assert (G' : 0 < nth (head l') freq 0) by (apply Ih; right; now left).
        apply (NoPick _ E2) in G, G'. injection G as ->. injection G' as E.
        inversion Il as [|? ? L1 Il1]; subst. inversion Il1 as [|? ? L2 _]; subst.
        cbn [concat] in In_. apply NoDup_app_inv in In_ as (_ & _ & D).
        apply (D (head l)); [now apply (linked_head others)|]. apply in_or_app. left. rewrite E. now apply (linked_head others). }
    destruct (Pick _ v2 E2) as (P2 & N12 & M2).
    apply Ih in P1 as H1. apply Ih in P2 as H2.
    apply in_map_iff in H1 as (l1 & <- & Hl1). apply in_map_iff in H2 as (l2 & <- & Hl2).
    assert (Ne : l1 <> l2) by (intros ->; now apply N12).
    destruct (in_split _ _ Hl1) as (Fa & Fb & EF). subst F.
    assert (Hl2' : In l2 (Fa ++ Fb)).
    { apply in_app_or in Hl2. apply in_or_app. destruct Hl2 as [|[E|]]; [now left|congruence|now right]. }
    destruct (in_split _ _ Hl2') as (Ga & Gb & EG).
    assert (Pm : Permutation (Fa ++ l1 :: Fb) (l1 :: l2 :: Ga ++ Gb)).
    { rewrite <- Permutation_middle. constructor. rewrite EG. symmetry. apply Permutation_middle. }
    pose proof (inv_perm _ _ _ _ _ _ Pm Hinv) as Hinv'.
    assert (H12 : weight l1 <= weight l2).
    { rewrite <- (Iw l1 Hl1), <- (Iw l2 Hl2). apply M1; [exact P2|discriminate]. }
    assert (Hrest : forall l, In l (Ga ++ Gb) -> weight l2 <= weight l).
    { intros l Hl. assert (HlF : In l (Fa ++ l1 :: Fb)).
      { eapply Permutation_in; [symmetry; exact Pm|]. right. now right. }
      rewrite <- (Iw l2 Hl2), <- (Iw l HlF). apply M2; [apply Ih; now apply in_map|].
      intros [= E]. destruct Hinv' as [_ _ _ Nd _ Il' _ _ _ _ _ _ _ _ _]. cbn [concat] in Nd.
      apply NoDup_app_inv in Nd as (_ & _ & D).
      rewrite Forall_forall in Il'.
      apply (D (head l1)); [apply (linked_head others), Il'; now left|]. apply in_or_app. right. apply in_concat.
      exists l. split; [exact Hl|]. rewrite E. apply (linked_head others), Il'. right. now right. }
    destruct (merge freq others cs m l1 l2 (Ga ++ Gb) Hinv' H12 Hrest) as (cs1 & cs2 & B1 & B2 & Hnew & Hsp).
    { rewrite ck_u_ret.
      2:{ pose proof (Bnd (head l1)). pose proof (Bnd (head l2)). rewrite (Iw l1 Hl1), (Iw l2 Hl2).
          destruct Hnew as [_ _ _ Nd Bd _ _ _ _ _ _ _ _ _ _]. cbn [concat] in Nd, Bd.
          apply NoDup_app_inv in Nd as (Nd & _ & _). apply Forall_app in Bd as [Bd _].
          pose proof (weight_total _ Nd Bd) as Wt. rewrite (lsum_app w0 l1 l2 : weight (l1 ++ l2) = weight l1 + weight l2) in Wt.
          rewrite (Iw l1 Hl1) in P1. rewrite (Iw l2 Hl2) in P2.
          lia. }
      cbn [bind]. rewrite B1. cbn [bind]. rewrite B2. cbn [bind].
      destruct (IH _ _ _ (weight l2) ((l1 ++ l2) :: Ga ++ Gb) Hnew) as (cs' & freq' & others' & m' & F' & Er & Hi' & HF' & c & Hg & Hs).
      + apply Permutation_length in Pm. cbn [length] in *. lia.
      + apply Permutation_length in Pm. cbn [length] in *. lia.
      + exists cs', freq', others', m', F'. split; [exact Er|]. split; [exact Hi'|]. split; [exact HF'|].
        exists (weight l1 + weight l2 + c). split; [|rewrite Hs, Hsp; lia].
        apply (g_step _ (weight l1) (weight l2) (map weight (Ga ++ Gb))).
        * exact (Permutation_map weight Pm).
        * exact H12.
        * intros x Hx. apply in_map_iff in Hx as (l & <- & Hl). exact (Hrest l Hl).
        * cbn [map] in Hg. rewrite (lsum_app w0 l1 l2 : weight (l1 ++ l2) = weight l1 + weight l2) in Hg. exact Hg. }
  Qed.

  Definition live0 : list nat := filter (fun i => 0 <? w0 i) (seq 0 257).

  Lemma concat_single (l : list nat) : concat (map (fun i => [i]) l) = l.
  Proof. induction l as [|x l IH]; [reflexivity|]. cbn [map concat app]. now rewrite IH. Qed.
  Lemma live0_in i : In i live0 <-> 0 < w0 i.
  Proof.
    unfold live0. rewrite filter_In, in_seq. split; [intros [_ H]; lia|].
    intros H. split; [|lia]. destruct (Nat.lt_ge_cases i 257) as [|G]; [lia|]. unfold w0 in H. rewrite nth_overflow in H by lia. lia.
  Qed.
  Lemma live0_bound : Forall (fun s => s < 257)%nat live0.
  Proof.
    apply Forall_forall. intros i H. apply live0_in in H.
    destruct (Nat.lt_ge_cases i 257) as [|G]; [assumption|]. unfold w0 in H. rewrite nth_overflow in H by lia. lia.
  Qed.
  Lemma live0_nodup : NoDup live0.
  Proof. unfold live0. apply NoDup_filter, seq_NoDup. Qed.
  Lemma live0_length : (length live0 <= 257)%nat.
  Proof.
    transitivity (length (seq 0 257)); [|rewrite seq_length; lia]. apply NoDup_incl_length; [exact live0_nodup|].
    intros i Hi. pose proof live0_bound as B. rewrite Forall_forall in B. specialize (B i Hi). apply in_seq. lia.
  Qed.
  Lemma inv_init_gen o c : length o = 257%nat -> length c = 257%nat ->
    (forall s, nth s o (-1) = -1) -> (forall s, nth s c 0 = 0) ->
    inv orig o c 0 (map (fun i => [i]) live0).
  Proof.
    intros Lo Lc Co Cz.
    pose proof live0_in as Lv. pose proof (concat_single live0) as Ec.
    constructor; rewrite ?Ec.
    - exact Hlen.
    - exact Lo.
    - exact Lc.
    - exact live0_nodup.
    - exact live0_bound.
    - apply Forall_forall. intros l H. apply in_map_iff in H as (i & <- & _). cbn [linked]. apply Co.
    - intros i. rewrite map_map. cbn [head hd]. rewrite map_id. symmetry. apply Lv.
    - exact Hnn.
    - intros l H. apply in_map_iff in H as (i & <- & _). cbn [head hd weight lsum fold_right]. unfold weight, w0. cbn. lia.
    - intros l H. apply in_map_iff in H as (i & <- & _). cbn [lsum fold_right]. rewrite Cz. reflexivity.
    - intros l s H Hs. apply in_map_iff in H as (i & <- & Hi). destruct Hs as [<-|[]]. rewrite Cz.
      apply Lv in Hi. unfold weight. cbn [lsum fold_right]. cbn. lia.
    - intros l H. apply in_map_iff in H as (i & <- & Hi). apply Lv in Hi. unfold weight. cbn [lsum fold_right]. lia.
    - lia.
    - exact Lv.
    - intros i _. apply Cz.
  Qed.

  Lemma inv_init : inv orig (repeat (-1) 257) (repeat 0 257) 0 (map (fun i => [i]) live0).
  Proof.
    apply inv_init_gen; [apply repeat_length|apply repeat_length|intros s; apply nth_repeat|intros s; apply nth_repeat].
  Qed.

  (** The result of Figure K.1, when at least two symbols are used. *)
  Theorem code_sizes_ok P : (2 <= length live0)%nat ->
    exists cs, code_sizes_loop P 258 orig (repeat (-1) 257) (repeat 0 257) = Ret cs /\ length cs = 257%nat /\
      (forall i, 0 < w0 i -> 1 <= nth i cs 0 <= 45) /\
      (weight (seq 0 257) < 9227465 -> forall i, nth i cs 0 <= 32) /\ (forall i, w0 i = 0 -> nth i cs 0 = 0) /\
      lsum (fun s => 2 ^ (45 - nth s cs 0)) live0 = 2 ^ 45.
  Proof.
    intros H2.
    assert (L0 : (length live0 <= 257)%nat) by exact live0_length.
    destruct (code_sizes_inv P 258 _ _ _ _ _ inv_init) as (cs & freq' & others' & m' & F' & E & Hi & HF & _); [rewrite map_length; lia|lia|].
    exists cs. split; [exact E|].
    destruct Hi as [If Io Ic In_ Ib Il Ih Inn Iw Ik Id Im Im0 Ilv Idd].
    pose proof live0_in as Lv.
    destruct F' as [|l [|? ?]]; [|clear HF|cbn in HF; lia].
    { exfalso. destruct live0 as [|x ?]; [cbn in H2; lia|]. assert (Hx : 0 < w0 x) by (apply Lv; now left).
      apply Ilv in Hx. destruct Hx. }
    cbn [concat] in *. rewrite app_nil_r in *.
    assert (Pm : Permutation l live0).
    { apply NoDup_Permutation; [exact In_|exact live0_nodup|]. intros i. now rewrite Ilv, Lv. }
    assert (K : lsum (fun s => 2 ^ (45 - nth s cs 0)) live0 = 2 ^ 45).
    { rewrite <- (lsum_perm _ _ _ Pm). apply Ik. now left. }
    split; [exact Ic|]. split; [|split; [|split; [|exact K]]].
    - intros i Hi. assert (Hil : In i l) by now apply Ilv.
      destruct (Id l i (or_introl eq_refl) Hil) as (A & _).
      split; [|lia]. destruct (Z_le_gt_dec 1 (nth i cs 0)) as [|G]; [assumption|exfalso].
      assert (G0 : nth i cs 0 = 0) by lia.
      (* a second symbol *)
      apply Lv in Hi. destruct (in_split _ _ Hi) as (a & b & Eab). rewrite Eab in K.
      rewrite lsum_app in K. cbn [lsum fold_right] in K. fold (lsum (fun s => 2 ^ (45 - nth s cs 0)) b) in K.
      rewrite G0 in K. change (2 ^ (45 - 0)) with (2 ^ 45) in K.
      assert (Pos : forall s, In s (a ++ b) -> 1 <= 2 ^ (45 - nth s cs 0)).
      { intros s Hs. assert (Hs' : In s l). { apply (Permutation_in _ (Permutation_sym Pm)). rewrite Eab. apply in_app_or in Hs. apply in_or_app. destruct Hs; [now left|right; now right]. }
        destruct (Id l s (or_introl eq_refl) Hs') as (A' & _).
        assert (0 < 2 ^ (45 - nth s cs 0)) by (apply Z.pow_pos_nonneg; lia). lia. }
      assert (S0 : lsum (fun s => 2 ^ (45 - nth s cs 0)) (a ++ b) = 0) by (rewrite lsum_app; lia).
      destruct (a ++ b) as [|x r] eqn:Er.
      + assert (Ll : length live0 = length (a ++ i :: b)) by now rewrite Eab.
        rewrite app_length in Ll. cbn [length] in Ll. apply (f_equal (@length nat)) in Er. rewrite app_length in Er. cbn in Er. lia.
      + cbn [lsum fold_right] in S0. fold (lsum (fun s => 2 ^ (45 - nth s cs 0)) r) in S0.
        pose proof (Pos x (or_introl eq_refl)).
        assert (0 <= lsum (fun s => 2 ^ (45 - nth s cs 0)) r); [|lia].
        apply lsum_nonneg. intros s Hs. specialize (Pos s (or_intror Hs)). lia.
    - intros Hw i. destruct (in_dec Nat.eq_dec i l) as [Hil|Hil]; [|rewrite Idd by exact Hil; lia].
      destruct (Id l i (or_introl eq_refl) Hil) as (A & B & _).
      destruct (Z_le_gt_dec (nth i cs 0) 32) as [|G]; [assumption|exfalso].
      assert (fib 35 <= fib (Z.to_nat (nth i cs 0%Z) + 2)) as G35 by (apply fib_mono; lia). rewrite fib_35 in G35.
      pose proof (weight_total l In_ Ib). lia.
    - intros i Hi. apply Idd. rewrite Ilv. lia.
  Qed.

  (** The bits spent are the cost of Huffman's algorithm; depths are bounded by Fibonacci numbers. *)
  Theorem code_sizes_cost P cs : code_sizes_loop P 258 orig (repeat (-1) 257) (repeat 0 257) = Ret cs ->
    greedy (map w0 live0) (spent cs) /\
    forall d, weight (seq 0 257) < fib (d + 3) -> forall i, nth i cs 0 <= Z.of_nat d.
  Proof.
    intros Ecs. assert (L0 : (length live0 <= 257)%nat) by exact live0_length.
    destruct (code_sizes_inv P 258 _ _ _ _ _ inv_init) as (cs' & freq' & others' & m' & F' & E & Hi & HF & c & Hg & Hs); [rewrite map_length; lia|lia|].
    assert (cs' = cs) by congruence. subst cs'. split.
    - assert (Z0 : spent (repeat 0 257) = 0).
      { unfold spent. rewrite (lsum_ext _ (fun s => 0 * w0 s)); [rewrite lsum_scale; lia|]. intros s _. rewrite nth_repeat. lia. }
      rewrite Hs, Z0, Z.add_0_l. rewrite map_map in Hg. rewrite (map_ext _ w0) in Hg; [exact Hg|].
      intros i. unfold weight. cbn [lsum fold_right]. lia.
    - intros d Hd i. destruct Hi as [If Io Ic In_ Ib Il Ih Inn Iw Ik Id Im Im0 Ilv Idd].
      destruct (in_dec Nat.eq_dec i (concat F')) as [Hi|Hi]; [|rewrite Idd by exact Hi; lia].
      apply in_concat in Hi as (l & Hl & Hil). destruct (Id l i Hl Hil) as (A & B & _).
      destruct (Z_le_gt_dec (nth i cs 0) (Z.of_nat d)) as [|G]; [assumption|exfalso].
      assert (fib (d + 3) <= fib (Z.to_nat (nth i cs 0%Z) + 2)) by (apply fib_mono; lia).
      assert (weight l <= weight (seq 0 257)); [|lia]. apply weight_total.
      + clear - In_ Hl. induction F' as [|x F IHF]; [destruct Hl|]. cbn [concat] in In_.
        apply NoDup_app_inv in In_ as (A & B & _). destruct Hl as [->|Hl]; [exact A|now apply IHF].
      + apply Forall_forall. intros x Hx. rewrite Forall_forall in Ib. apply Ib. apply in_concat. now exists l.
  Qed.
End Loop.
