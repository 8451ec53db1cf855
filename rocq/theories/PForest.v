(** HuffmanTable::new_optimized terminates for every frequency array: the chains of Figure K.1 stay a forest
    of full binary trees whatever the frequencies (even if their sums wrap), and the parity of the number of
    longest codes makes Figure K.3 stop. *)
From Verif Require Export PSafe.
From Coq Require Import ZArith List Bool Lia ZifyBool ZifyNat Permutation.
Import ListNotations.
From Verif Require Import PTree.
Open Scope Z_scope.

Definition full (cs : list Z) (l : list nat) : Prop :=
  forall D, 0 <= D -> (forall s, In s l -> nth s cs 0 <= D) -> lsum (fun s => 2 ^ (D - nth s cs 0)) l = 2 ^ D.

Record forest (freq others cs : list Z) (F : list (list nat)) : Prop := {
  o_freq : length freq = 257%nat;
  o_others : length others = 257%nat;
  o_cs : length cs = 257%nat;
  o_all : Permutation (concat F) (seq 0 257);
  o_link : Forall (linked others) F;
  o_head : forall i, 0 < nth i freq 0 -> exists l, In l F /\ head l = i;
  o_nonneg : forall i, 0 <= nth i cs 0;
  o_full : forall l, In l F -> full cs l;
  o_inner : forall l, In l F -> (exists s, l = [s] /\ nth s cs 0 = 0) \/ (forall s, In s l -> 1 <= nth s cs 0)
}.

Lemma concat_perm {A} (F F' : list (list A)) : Permutation F F' -> Permutation (concat F) (concat F').
Proof.
  induction 1; cbn [concat]; [constructor|now apply Permutation_app_head| |now transitivity (concat l')].
  rewrite !app_assoc. apply Permutation_app_tail, Permutation_app_comm.
Qed.

Lemma forest_perm freq others cs F F' : Permutation F F' -> forest freq others cs F -> forest freq others cs F'.
Proof.
  intros Hp []. assert (Hin : forall l, In l F' -> In l F) by (intros l; apply Permutation_in; now symmetry).
  constructor; auto.
  - rewrite <- (concat_perm _ _ Hp). assumption.
  - eapply Permutation_Forall; eassumption.
  - intros i Hi. destruct (o_head0 i Hi) as (l & Hl & E). exists l. split; [eapply Permutation_in; eassumption|exact E].
Qed.

Lemma forest_init freq : length freq = 257%nat -> forest freq (repeat (-1) 257) (repeat 0 257) (map (fun s => [s]) (seq 0 257)).
Proof.
  intros Hf.
  assert (C : forall l : list nat, concat (map (fun s => [s]) l) = l) by (induction l as [|x l IH]; cbn [map concat app]; [reflexivity|now rewrite IH]).
  assert (Z0 : forall n i, nth i (repeat 0 n) 0 = 0) by (induction n as [|n IH]; intros [|i]; cbn [repeat nth]; auto).
  assert (N1 : forall n i, nth i (repeat (-1) n) (-1) = -1) by (induction n as [|n IH]; intros [|i]; cbn [repeat nth]; auto).
  constructor; try apply repeat_length; try exact Hf.
  - now rewrite C.
  - apply Forall_forall. intros l Hl. apply in_map_iff in Hl as (s & <- & _). cbn [linked]. apply N1.
  - intros i Hi. exists [i]. split; [|reflexivity]. apply in_map_iff. exists i. split; [reflexivity|]. apply in_seq.
    destruct (Nat.lt_ge_cases i 257) as [|G]; [lia|]. rewrite nth_overflow in Hi by lia. lia.
  - intros i. rewrite Z0. lia.
  - intros l Hl. apply in_map_iff in Hl as (s & <- & _). intros D HD _. cbn [lsum fold_right]. rewrite Z0. rewrite Z.sub_0_r. lia.
  - intros l Hl. apply in_map_iff in Hl as (s & <- & _). left. exists s. split; [reflexivity|apply Z0].
Qed.

Lemma two_of_forest (F : list (list nat)) l1 l2 : In l1 F -> In l2 F -> l1 <> l2 -> exists F', Permutation F (l1 :: l2 :: F').
Proof.
  intros H1 H2 Hne. destruct (in_split _ _ H1) as (a & b & ->).
  assert (H2' : In l2 (a ++ b)). { apply in_app_or in H2. apply in_or_app. destruct H2 as [|[|]]; [now left|congruence|now right]. }
  destruct (in_split _ _ H2') as (c & d & E). exists (c ++ d).
  transitivity (l1 :: (a ++ b)); [symmetry; apply Permutation_middle|]. constructor. rewrite E. symmetry. apply Permutation_middle.
Qed.

Lemma forest_merge freq others cs l1 l2 F s :
  forest freq others cs (l1 :: l2 :: F) -> 
  exists cs1 cs2,
    bump_chain 258 others cs (head l1) = Ret (cs1, last l1 0%nat) /\
    bump_chain 258 (upd others (last l1 0%nat) (Z.of_nat (head l2))) cs1 (head l2) = Ret (cs2, last l2 0%nat) /\
    forest (upd (upd freq (head l1) s) (head l2) 0)
           (upd others (last l1 0%nat) (Z.of_nat (head l2))) cs2 ((l1 ++ l2) :: F).
Proof.
  intros [If Io Ic Ia Il Ih Inn Ifu Iin]. cbn [concat] in Ia. rewrite app_assoc in Ia.
  inversion Il as [|? ? L1 Il1]; subst. inversion Il1 as [|? ? L2 Il2]; subst.
  assert (Nd : NoDup ((l1 ++ l2) ++ concat F)) by (eapply Permutation_NoDup; [symmetry; exact Ia|apply seq_NoDup]).
  assert (Ib : Forall (fun s => s < 257)%nat ((l1 ++ l2) ++ concat F)).
  { apply Forall_forall. intros x Hx. apply (Permutation_in _ Ia), in_seq in Hx. lia. }
  destruct (NoDup_app_inv _ _ Nd) as (N12 & NF & D12F).
  destruct (NoDup_app_inv _ _ N12) as (N1 & N2 & D12).
  apply Forall_app in Ib as [B12 BF]. assert (B12' := B12). apply Forall_app in B12 as [B1 B2].
  assert (Len : forall l, NoDup l -> Forall (fun s => s < 257)%nat l -> (length l <= 257)%nat).
  { intros l N B. transitivity (length (seq 0 257)); [|rewrite seq_length; lia]. apply NoDup_incl_length; [exact N|].
    intros x Hx. rewrite Forall_forall in B. apply in_seq. specialize (B x Hx). lia. }
  assert (Len1 := Len l1 N1 B1). assert (Len2 := Len l2 N2 B2).
  destruct (bump_chain_spec others l1 258 cs L1 N1 ltac:(lia)) as (cs1 & E1 & El1 & En1); [now rewrite Ic|].
  assert (Hlast1 : In (last l1 0%nat) l1) by (destruct l1; [destruct L1|apply last_in]).
  assert (Hl1b : (last l1 0 < length others)%nat).
  { rewrite Io. rewrite Forall_forall in B1. exact (B1 _ Hlast1). }
  set (others' := upd others (last l1 0%nat) (Z.of_nat (head l2))).
  assert (L2' : linked others' l2).
  { apply linked_upd; [exact L2|]. intros H. exact (D12 _ Hlast1 H). }
  destruct (bump_chain_spec others' l2 258 cs1 L2' N2 ltac:(lia)) as (cs2 & E2 & El2 & En2); [now rewrite El1, Ic|].
  exists cs1, cs2. split; [exact E1|]. split; [exact E2|].
  assert (Hcs : forall i, nth i cs2 0 = nth i cs 0 + (if in_dec Nat.eq_dec i (l1 ++ l2) then 1 else 0)).
  { intros i. rewrite En2, En1.
    destruct (in_dec Nat.eq_dec i (l1 ++ l2)) as [H|H], (in_dec Nat.eq_dec i l1) as [H1|H1], (in_dec Nat.eq_dec i l2) as [H2|H2];
      try lia; exfalso; rewrite in_app_iff in H; try tauto; exact (D12 i H1 H2). }
  assert (HF12 : forall l x, In l F -> In x l -> ~ In x (l1 ++ l2)).
  { intros l x Hl Hs H. apply (D12F x H). apply in_concat. now exists l. }
  assert (HcsF : forall l x, In l F -> In x l -> nth x cs2 0 = nth x cs 0).
  { intros l x Hl Hs. rewrite Hcs. destruct (in_dec Nat.eq_dec x (l1 ++ l2)) as [H|H]; [|lia]. exfalso. exact (HF12 l x Hl Hs H). }
  assert (HcsL : forall x, In x (l1 ++ l2) -> nth x cs2 0 = nth x cs 0 + 1).
  { intros x Hs. rewrite Hcs. destruct (in_dec Nat.eq_dec x (l1 ++ l2)) as [H|H]; [reflexivity|contradiction]. }
  assert (Hhd : head (l1 ++ l2) = head l1) by (destruct l1; [destruct L1|reflexivity]).
  constructor.
  - now rewrite !upd_length.
  - unfold others'. now rewrite upd_length.
  - now rewrite El2, El1.
  - exact Ia.
  - constructor.
    + apply linked_app; assumption.
    + apply Forall_forall. intros l Hl. rewrite Forall_forall in Il2. apply linked_upd; [now apply Il2|].
      intros H. apply (HF12 l _ Hl H). apply in_or_app. now left.
  - intros i Hi. rewrite !nth_upd in Hi. destruct (Nat.eqb_spec (head l2) i) as [E|N2'].
    + exfalso. rewrite <- E in Hi. assert (Hh2 : (head l2 < 257)%nat) by (rewrite Forall_forall in B2; apply B2, (linked_head others), L2).
      rewrite upd_length, If in Hi. replace (head l2 <? 257)%nat with true in Hi by lia. cbn [andb] in Hi. lia.
    + cbn [andb] in Hi. destruct (Nat.eqb_spec (head l1) i) as [E|N1'].
      * exists (l1 ++ l2). split; [now left|congruence].
      * cbn [andb] in Hi. destruct (Ih i Hi) as (l & [<-|[<-|Hl]] & E); [congruence|congruence|]. exists l. split; [now right|exact E].
  - intros i. rewrite Hcs. specialize (Inn i). destruct (in_dec _ _ _); lia.
  - intros l [<-|Hl].
    + intros D HD Hle. assert (Hx1 : In (head l1) (l1 ++ l2)) by (apply in_or_app; left; now apply (linked_head others)).
      assert (HD1 : 0 <= D - 1). { specialize (Hle _ Hx1). rewrite (HcsL _ Hx1) in Hle. specialize (Inn (head l1)). lia. }
      assert (G : forall l, In l [l1; l2] -> lsum (fun x => 2 ^ (D - nth x cs2 0)) l = 2 ^ (D - 1)).
      { intros l Hl. assert (Hi : forall x, In x l -> In x (l1 ++ l2)).
        { intros x Hx. apply in_or_app. destruct Hl as [<-|[<-|[]]]; [now left|now right]. }
        rewrite <- (Ifu l ltac:(destruct Hl as [<-|[<-|[]]]; cbn [In]; tauto) (D - 1) HD1).
        - apply lsum_ext. intros x Hx. rewrite (HcsL x (Hi x Hx)). f_equal. lia.
        - intros x Hx. specialize (Hle x (Hi x Hx)). rewrite (HcsL x (Hi x Hx)) in Hle. lia. }
      rewrite lsum_app, (G l1), (G l2) by (cbn [In]; tauto).
      replace D with (Z.succ (D - 1)) at 3 by lia. rewrite Z.pow_succ_r by lia. lia.
    + intros D HD Hle. rewrite <- (Ifu l ltac:(right; now right) D HD).
      * apply lsum_ext. intros x Hx. now rewrite (HcsF l x Hl Hx).
      * intros x Hx. rewrite <- (HcsF l x Hl Hx). now apply Hle.
  - intros l [<-|Hl].
    + right. intros x Hx. rewrite (HcsL x Hx). specialize (Inn x). lia.
    + destruct (Iin l (or_intror (or_intror Hl))) as [(x & E & H0)|Hx].
      * left. exists x. split; [exact E|]. rewrite (HcsF l x Hl); [exact H0|rewrite E; now left].
      * right. intros x H. rewrite (HcsF l x Hl H). now apply Hx.
Qed.

Section Opt.
  Variable R : panic_reason -> Prop.
  Variable P : platform.
  Variable HR : R PIndex.
  Variable HO : dbg P = true -> R POverflow.
  Variable HD : dbg P = true -> R PDebugAssert.
  Notation safe := (PSafe.safe R).

  Lemma safe_code_sizes : forall fuel freq others cs F, forest freq others cs F -> (length F < fuel)%nat ->
    safe (fun cs' => exists freq' others' F', forest freq' others' cs' F') (code_sizes_loop P fuel freq others cs).
  Proof.
    induction fuel as [|fuel IH]; intros freq others cs F Hf Hn; [lia|]. cbn [code_sizes_loop].
    destruct (find_least None freq 0 None U32_MAX) as [v1|] eqn:E1; [|constructor; now exists freq, others, F].
    destruct (find_least (Some v1) freq 0 None U32_MAX) as [v2|] eqn:E2; [|constructor; now exists freq, others, F].
    destruct (find_least_spec None freq 0 None U32_MAX) as [(k1 & H1 & (_ & P1 & _) & _)|[H1 _]]; [|congruence].
    rewrite H1 in E1. injection E1 as <-. rewrite Nat.add_0_l in *.
    destruct (find_least_spec (Some k1) freq 0 None U32_MAX) as [(k2 & H2 & (_ & P2 & S2) & _)|[H2 _]]; [|congruence].
    rewrite H2 in E2. injection E2 as <-. rewrite Nat.add_0_l in *.
    destruct (o_head _ _ _ _ Hf k1 P1) as (l1 & Hl1 & <-). destruct (o_head _ _ _ _ Hf k2 P2) as (l2 & Hl2 & <-).
    assert (Hne : l1 <> l2) by (intros ->; now apply S2).
    destruct (two_of_forest F l1 l2 Hl1 Hl2 Hne) as (F' & Hp). apply (forest_perm _ _ _ _ _ Hp) in Hf.
    apply Permutation_length in Hp. cbn [length] in Hp.
    eapply safe_bind; [apply safe_ck_u; [exact HO|exact HD|lia]|]. intros s _. cbv beta zeta.
    destruct (forest_merge freq others cs l1 l2 F' s Hf) as (cs1 & cs2 & B1 & B2 & Hf').
    rewrite B1. cbn [bind]. rewrite B2. cbn [bind]. apply (IH _ _ _ _ Hf'). cbn [length]. lia.
  Qed.

  (** Sums over the code lengths *)
  Fixpoint T (bits : list Z) (n : nat) : Z := match n with O => nth 0 bits 0 | S m => T bits m + nth n bits 0 end.
  Fixpoint K (bits : list Z) (n : nat) : Z := match n with O => nth 0 bits 0 | S m => 2 * K bits m + nth n bits 0 end.

  Lemma T_upd bits i v : (i < length bits)%nat -> forall n, (i <= n)%nat -> T (upd bits i v) n = T bits n + (v - nth i bits 0).
  Proof.
    intros Hi. assert (Lo : forall n, (n < i)%nat -> T (upd bits i v) n = T bits n).
    { induction n as [|n IH]; intros H; cbn [T]; [|rewrite IH by lia]; rewrite nth_upd; replace (i =? _)%nat with false by lia; reflexivity. }
    induction n as [|n IH]; intros Hn.
    - cbn [T]. rewrite nth_upd. replace (i =? 0)%nat with true by lia. replace (i <? length bits)%nat with true by lia. replace i with 0%nat by lia.
      cbn [andb]. lia.
    - cbn [T]. rewrite nth_upd. replace (i <? length bits)%nat with true by lia. rewrite andb_true_r.
      destruct (Nat.eqb_spec i (S n)) as [->|Ne]; [rewrite Lo by lia; lia|rewrite IH by lia; lia].
  Qed.
  Lemma K_upd bits i v : (i < length bits)%nat -> forall n, (i <= n)%nat ->
    K (upd bits i v) n = K bits n + (v - nth i bits 0) * 2 ^ (Z.of_nat n - Z.of_nat i).
  Proof.
    intros Hi. assert (Lo : forall n, (n < i)%nat -> K (upd bits i v) n = K bits n).
    { induction n as [|n IH]; intros H; cbn [K]; [|rewrite IH by lia]; rewrite nth_upd; replace (i =? _)%nat with false by lia; reflexivity. }
    induction n as [|n IH]; intros Hn.
    - cbn [K]. rewrite nth_upd. replace (i =? 0)%nat with true by lia. replace (i <? length bits)%nat with true by lia. replace i with 0%nat by lia.
      cbn [andb]. change (2 ^ (Z.of_nat 0 - Z.of_nat 0)) with 1. lia.
    - cbn [K]. rewrite nth_upd. replace (i <? length bits)%nat with true by lia. rewrite andb_true_r.
      destruct (Nat.eqb_spec i (S n)) as [->|Ne].
      + rewrite Lo by lia. rewrite Z.sub_diag. change (2 ^ 0) with 1. lia.
      + rewrite IH by lia. replace (Z.of_nat (S n) - Z.of_nat i) with (Z.succ (Z.of_nat n - Z.of_nat i)) by lia.
        rewrite Z.pow_succ_r by lia. lia.
  Qed.
  Lemma T_nonneg bits n : (forall i, 0 <= nth i bits 0) -> 0 <= T bits n.
  Proof. intros H. induction n as [|n IH]; cbn [T]; [apply H|specialize (H (S n)); lia]. Qed.
  Lemma T_ge bits : (forall i, 0 <= nth i bits 0) -> forall n i, (i <= n)%nat -> nth i bits 0 <= T bits n.
  Proof.
    intros H. induction n as [|n IH]; intros i Hi; cbn [T]; [replace i with 0%nat by lia; lia|].
    pose proof (T_nonneg bits n H) as HT. specialize (H (S n)) as HS. destruct (Nat.eq_dec i (S n)) as [->|]; [lia|specialize (IH i ltac:(lia)); lia].
  Qed.
  Lemma T_mono bits : (forall i, 0 <= nth i bits 0) -> forall n m, (n <= m)%nat -> T bits n <= T bits m.
  Proof. intros H n m. induction 1 as [|m Hm IH]; [lia|]. cbn [T]. specialize (H (S m)). lia. Qed.

  (** What is kept: 33 bytes, none for length 0; either at most one code, or full trees. *)
  Record bits_ok (n : nat) (bits : list Z) : Prop := {
    b_len : length bits = 33%nat;
    b_byte : forall i, 0 <= nth i bits 0 < 256;
    b_0 : nth 0 bits 0 = 0;
    b_or : T bits n <= 1 \/ (T bits n <= 257 /\ (2 ^ Z.of_nat n | K bits n))
  }.

  Lemma find_shorter_cases bits : nth 0 bits 0 = 0 -> forall j,
    safe (fun k => (k <= j)%nat /\ nth k bits 0 <> 0) (find_shorter P bits j).
  Proof.
    intros H0. induction j as [|j IH]; cbn [find_shorter].
    - destruct (_ =? 0) eqn:E; [|lia]. destruct (dbg P) eqn:D; constructor; [now apply HO|exact HR].
    - destruct (_ =? 0) eqn:E; [eapply safe_weaken; [|exact IH]; cbn beta; intros k [Hk Hn]; split; [lia|exact Hn]|].
      constructor. split; [lia|lia].
  Qed.

  Lemma safe_ck_u8 z : 0 <= z < 512 -> safe (fun v => 0 <= v < 256 /\ (v = z \/ v = z - 256)) (ck_u P 8 z).
  Proof.
    intros Hz. unfold ck_u. change (2 ^ 8) with 256. destruct ((0 <=? z) && (z <? 256)) eqn:E.
    - constructor. lia.
    - destruct (dbg P) eqn:D; constructor; [now apply HO|]. unfold wrap_u. change (2 ^ 8) with 256.
      assert (z mod 256 = z - 256) by (symmetry; apply (Z.mod_unique z 256 1); lia). lia.
  Qed.

  Lemma safe_shorten i : (17 <= i <= 32)%nat -> forall fuel bits, bits_ok i bits -> nth i bits 0 < 2 * Z.of_nat fuel ->
    safe (fun b => bits_ok i b /\ nth i b 0 = 0) (shorten_level P fuel i bits).
  Proof.
    intros Hi. induction fuel as [|fuel IH]; intros bits [Hl Hb H0 Hor] Hfu; [specialize (Hb i); lia|]. cbn [shorten_level].
    destruct (0 <? nth i bits 0) eqn:Pi; [|constructor; split; [constructor; assumption|specialize (Hb i); lia]].
    eapply safe_bind; [apply find_shorter_cases; exact H0|]. intros j [Hj Hjn]. cbv beta zeta.
    assert (Hnn : forall k, 0 <= nth k bits 0) by (intros k; apply Hb).
    (* at least two codes: [i] and [j] *)
    assert (T2 : 2 <= T bits i).
    { destruct i as [|i]; [lia|]. cbn [T]. cbn [T] in *. pose proof (T_ge bits Hnn i j ltac:(lia)). specialize (Hnn j). lia. }
    destruct Hor as [|[HT HK]]; [lia|].
    assert (Ev : exists m, nth i bits 0 = 2 * m).
    { destruct i as [|i]; [lia|]. cbn [K] in HK. destruct HK as [q HK].
      replace (Z.of_nat (S i)) with (Z.succ (Z.of_nat i)) in HK by lia. rewrite Z.pow_succ_r in HK by lia.
      exists (q * 2 ^ Z.of_nat i - K bits i). lia. }
    destruct Ev as [m Em].
    eapply safe_bind; [apply safe_ck_u8; specialize (Hb i); lia|]. intros a1 [Ha1 Ea1]. assert (a1 = nth i bits 0 - 2) by (specialize (Hb i); lia). clear Ea1.
    set (b1 := upd bits i a1). assert (L1 : length b1 = 33%nat) by (unfold b1; now rewrite upd_length).
    assert (N1 : forall k, nth k b1 0 = if (i =? k)%nat then a1 else nth k bits 0).
    { intros k. unfold b1. rewrite nth_upd. replace (i <? length bits)%nat with true by lia. now rewrite andb_true_r. }
    assert (B1 : forall k, 0 <= nth k b1 0 < 256) by (intros k; rewrite N1; destruct (_ =? _)%nat; [lia|apply Hb]).
    eapply safe_bind; [apply safe_ck_u8; specialize (B1 (i - 1)%nat); lia|]. intros a2 [Ha2 Ea2].
    set (b2 := upd b1 (i - 1) a2). assert (L2 : length b2 = 33%nat) by (unfold b2; now rewrite upd_length).
    assert (N2 : forall k, nth k b2 0 = if (i - 1 =? k)%nat then a2 else nth k b1 0).
    { intros k. unfold b2. rewrite nth_upd. replace (i - 1 <? length b1)%nat with true by lia. now rewrite andb_true_r. }
    assert (B2 : forall k, 0 <= nth k b2 0 < 256) by (intros k; rewrite N2; destruct (_ =? _)%nat; [lia|apply B1]).
    eapply safe_bind; [apply safe_ck_u8; specialize (B2 (j + 1)%nat); lia|]. intros a3 [Ha3 Ea3].
    set (b3 := upd b2 (j + 1) a3). assert (L3 : length b3 = 33%nat) by (unfold b3; now rewrite upd_length).
    assert (N3 : forall k, nth k b3 0 = if (j + 1 =? k)%nat then a3 else nth k b2 0).
    { intros k. unfold b3. rewrite nth_upd. replace (j + 1 <? length b2)%nat with true by lia. now rewrite andb_true_r. }
    assert (B3 : forall k, 0 <= nth k b3 0 < 256) by (intros k; rewrite N3; destruct (_ =? _)%nat; [lia|apply B2]).
    assert (Ej : nth j b3 0 = nth j bits 0).
    { rewrite N3, N2, N1. replace (j + 1 =? j)%nat with false by lia. replace (i - 1 =? j)%nat with false by lia. now replace (i =? j)%nat with false by lia. }
    eapply safe_bind; [apply safe_ck_u8; rewrite Ej; specialize (Hb j); lia|]. intros a4 [Ha4 Ea4].
    rewrite Ej in Ea4. assert (a4 = nth j bits 0 - 1) by (specialize (Hb j); lia). clear Ea4.
    set (b4 := upd b3 j a4). assert (L4 : length b4 = 33%nat) by (unfold b4; now rewrite upd_length).
    assert (N4 : forall k, nth k b4 0 = if (j =? k)%nat then a4 else nth k b3 0).
    { intros k. unfold b4. rewrite nth_upd. replace (j <? length b3)%nat with true by lia. now rewrite andb_true_r. }
    assert (B4 : forall k, 0 <= nth k b4 0 < 256) by (intros k; rewrite N4; destruct (_ =? _)%nat; [lia|apply B3]).
    assert (J0 : (j <> 0)%nat) by (intros ->; contradiction).
    assert (ET : T b4 i = T bits i - 2 + (a2 - nth (i - 1) b1 0) + (a3 - nth (j + 1) b2 0) - 1).
    { unfold b4. rewrite T_upd by lia. unfold b3 at 1. rewrite T_upd by lia. unfold b2 at 1. rewrite T_upd by lia. unfold b1 at 1. rewrite T_upd by lia. lia. }
    assert (EK : K b4 i = K bits i - 2 + (a2 - nth (i - 1) b1 0) * 2 + (a3 - nth (j + 1) b2 0) * 2 ^ (Z.of_nat i - Z.of_nat j - 1)
                 - 2 * 2 ^ (Z.of_nat i - Z.of_nat j - 1)).
    { unfold b4. rewrite K_upd by lia. unfold b3 at 1. rewrite K_upd by lia. unfold b2 at 1. rewrite K_upd by lia. unfold b1 at 1. rewrite K_upd by lia.
      rewrite Z.sub_diag. replace (Z.of_nat i - Z.of_nat (i - 1)) with 1 by lia. change (2 ^ 0) with 1. change (2 ^ 1) with 2.
      replace (Z.of_nat i - Z.of_nat (j + 1)) with (Z.of_nat i - Z.of_nat j - 1) by lia.
      replace (2 ^ (Z.of_nat i - Z.of_nat j)) with (2 * 2 ^ (Z.of_nat i - Z.of_nat j - 1)) by (rewrite <- Z.pow_succ_r by lia; f_equal; lia).
      rewrite Ej. lia. }
    apply IH.
    - constructor; [exact L4|exact B4| |].
      + rewrite N4, N3, N2, N1. replace (j =? 0)%nat with false by lia. replace (j + 1 =? 0)%nat with false by lia.
        replace (i - 1 =? 0)%nat with false by lia. now replace (i =? 0)%nat with false by lia.
      + destruct Ea2 as [Ea2|Ea2]; [|left; lia]. destruct Ea3 as [Ea3|Ea3]; [|left; lia]. right. split; [lia|].
        replace (K b4 i) with (K bits i) by lia. exact HK.
    - rewrite N4, N3, N2, N1. replace (j =? i)%nat with false by lia. replace (j + 1 =? i)%nat with false by lia.
      replace (i - 1 =? i)%nat with false by lia. rewrite Nat.eqb_refl. lia.
  Qed.

  Lemma bits_ok_down n bits : bits_ok (S n) bits -> nth (S n) bits 0 = 0 -> bits_ok n bits.
  Proof.
    intros [Hl Hb H0 Hor] E. constructor; try assumption. cbn [T K] in Hor. rewrite E in Hor. destruct Hor as [|[H1 H2]]; [left; lia|right].
    split; [lia|]. destruct H2 as [q H2]. exists q. replace (Z.of_nat (S n)) with (Z.succ (Z.of_nat n)) in H2 by lia.
    rewrite Z.pow_succ_r in H2 by lia. lia.
  Qed.

  Lemma safe_levels : forall k n bits, (n = 16 + k)%nat -> (n <= 32)%nat -> bits_ok n bits ->
    safe (bits_ok 16) (foldM (fun b i => shorten_level P 257 i b) (rev (seq 17 k)) bits).
  Proof.
    induction k as [|k IH]; intros n bits -> Hn Hb; [constructor; now rewrite Nat.add_0_r in Hb|].
    rewrite seq_S, rev_app_distr. cbn [rev app foldM]. eapply safe_bind.
    - apply (safe_shorten (17 + k)); [lia|replace (17 + k)%nat with (16 + S k)%nat by lia; exact Hb|].
      pose proof (b_byte _ _ Hb (17 + k)%nat). lia.
    - intros b [Hb' E]. apply (IH (16 + k)%nat); [reflexivity|lia|]. apply bits_ok_down; [|exact E].
      replace (S (16 + k)) with (17 + k)%nat by lia. exact Hb'.
  Qed.

  (** Figure K.2 *)
  Definition coded (cs : list Z) : Z := lsum (fun s => if 0 <? nth s cs 0 then 2 ^ (32 - nth s cs 0) else 0) (seq 0 (length cs)).
  Definition coded' (cs : list Z) : Z := fold_right (fun c a => (if 0 <? c then 2 ^ (32 - c) else 0) + a) 0 cs.
  Lemma coded_eq cs : coded cs = coded' cs.
  Proof.
    unfold coded. induction cs as [|c cs IH]; [reflexivity|]. cbn [length seq]. cbn [lsum fold_right coded'].
    fold (coded' cs). rewrite <- IH. cbn [nth]. f_equal. rewrite <- seq_shift. clear. induction (seq 0 (length cs)) as [|x l IH]; [reflexivity|].
    cbn [map fold_right lsum]. cbn [nth]. f_equal. exact IH.
  Qed.

  Lemma safe_count_from : forall cs p bits k0, length bits = 33%nat -> (forall i, 0 <= nth i bits 0 < 256) -> nth 0 bits 0 = 0 ->
    p + Z.of_nat (length cs) <= 257 -> (T bits 32 <= p - 256 \/ (T bits 32 <= p /\ K bits 32 = k0)) ->
    safe (fun b => length b = 33%nat /\ (forall i, 0 <= nth i b 0 < 256) /\ nth 0 b 0 = 0 /\
                   (T b 32 <= 1 \/ (T b 32 <= 257 /\ K b 32 = k0 + coded' cs /\ Forall (fun c => c <= 32) cs)))
      (foldM (fun bits size => if 0 <? size then
                let* b := index bits size in let* b' := ck_u P 8 (b + 1) in Ret (upd bits (Z.to_nat size) b')
              else Ret bits) cs bits).
  Proof.
    induction cs as [|c cs IH]; intros p bits k0 Hl Hb H0 Hp Hor; cbn [foldM].
    - constructor. split; [exact Hl|]. split; [exact Hb|]. split; [exact H0|]. cbn [length coded' fold_right] in *. destruct Hor as [|[H1 H2]]; [left; lia|right].
      split; [lia|]. split; [lia|constructor].
    - destruct (0 <? c) eqn:Pc.
      + eapply safe_bind.
        * instantiate (1 := fun b => (length b = 33%nat /\ (forall i, 0 <= nth i b 0 < 256) /\ nth 0 b 0 = 0 /\ c <= 32) /\
              (T b 32 <= p + 1 - 256 \/ (T b 32 <= p + 1 /\ K b 32 = k0 + 2 ^ (32 - c)))).
          unfold index. destruct (0 <=? c) eqn:Pc0; [|lia]. destruct (nth_error bits (Z.to_nat c)) as [x|] eqn:E; [|constructor; exact HR].
          cbn [bind]. assert (Hc : (Z.to_nat c < length bits)%nat) by (apply nth_error_Some; congruence).
          assert (Ex : x = nth (Z.to_nat c) bits 0) by (symmetry; now apply nth_error_nth). subst x.
          eapply safe_bind; [apply safe_ck_u8; specialize (Hb (Z.to_nat c)); lia|]. intros b' [Hb' Eb']. constructor.
          assert (U : forall i, nth i (upd bits (Z.to_nat c) b') 0 = if (Z.to_nat c =? i)%nat then b' else nth i bits 0).
          { intros i. rewrite nth_upd. replace (Z.to_nat c <? length bits)%nat with true by lia. now rewrite andb_true_r. }
          split; [split; [now rewrite upd_length|]; split; [intros i; rewrite U; destruct (_ =? _)%nat; [lia|apply Hb]|];
                  split; [rewrite U; replace (Z.to_nat c =? 0)%nat with false by lia; exact H0|lia]|].
          rewrite T_upd, K_upd by lia. replace (Z.of_nat 32 - Z.of_nat (Z.to_nat c)) with (32 - c) by lia.
          pose proof (T_nonneg bits 32 ltac:(intros i; apply Hb)).
          destruct Hor as [Hor|[H1 H2]]; destruct Eb' as [-> | ->]; [left; lia|left; lia|right|left; lia]. split; [lia|]. rewrite H2. lia.
        * intros b [(Bl & Bb & B0 & Hc) Bor]. eapply safe_weaken; [|apply (IH (p + 1) b (k0 + 2 ^ (32 - c)) Bl Bb B0); [cbn [length] in Hp; lia|exact Bor]].
          cbn beta. intros b' (L & B & Z0 & [H|(H1 & H2 & H3)]); (split; [exact L|]; split; [exact B|]; split; [exact Z0|]); [now left|right].
          split; [exact H1|]. cbn [coded' fold_right]. fold (coded' cs). rewrite Pc. split; [lia|now constructor].
      + cbn [bind]. eapply safe_weaken; [|apply (IH (p + 1) bits k0 Hl Hb H0); [cbn [length] in Hp; lia|destruct Hor as [|[]]; [left; lia|right; split; [lia|assumption]]]].
        cbn beta. intros b' (L & B & Z0 & [H|(H1 & H2 & H3)]); (split; [exact L|]; split; [exact B|]; split; [exact Z0|]); [now left|right].
        split; [exact H1|]. cbn [coded' fold_right]. fold (coded' cs). rewrite Pc. split; [lia|constructor; [lia|exact H3]].
  Qed.

  Lemma forest_coded freq others cs F : forest freq others cs F -> Forall (fun c => c <= 32) cs -> exists m, coded' cs = m * 2 ^ 32.
  Proof.
    intros [If Io Ic Ia Il Ih Inn Ifu Iin] Hc. rewrite <- coded_eq. unfold coded. rewrite Ic, <- (lsum_perm _ _ _ Ia).
    assert (Hle : forall s, nth s cs 0 <= 32).
    { intros s. destruct (Nat.lt_ge_cases s (length cs)) as [L|G]; [rewrite Forall_forall in Hc; now apply Hc, nth_In|rewrite nth_overflow by lia; lia]. }
    clear Ia Il Ih. induction F as [|l F IH]; [now exists 0|]. cbn [concat]. rewrite lsum_app.
    destruct IH as [m ->]; [intros l' Hl'; apply Ifu; now right|intros l' Hl'; apply Iin; now right|].
    destruct (Iin l (or_introl eq_refl)) as [(s & -> & E)|Hp].
    - exists m. cbn [lsum fold_right]. rewrite E. cbn [Z.ltb Z.compare]. lia.
    - exists (1 + m). rewrite (lsum_ext _ (fun s => 2 ^ (32 - nth s cs 0))).
      + rewrite (Ifu l (or_introl eq_refl) 32 ltac:(lia)); [lia|]. intros s _. apply Hle.
      + intros s Hs. specialize (Hp s Hs). replace (0 <? nth s cs 0) with true by lia. reflexivity.
  Qed.

  Lemma safe_count_sizes freq others cs F : forest freq others cs F -> safe (bits_ok 32) (count_sizes P cs).
  Proof.
    intros Hf. unfold count_sizes. assert (Z0 : forall n i, nth i (repeat 0 n) 0 = 0) by (induction n as [|n IH]; intros [|i]; cbn [repeat nth]; auto).
    eapply safe_weaken; [|apply (safe_count_from cs 0 (repeat 0 33) 0)].
    - cbn beta. intros b (L & B & H0 & Hor). constructor; [exact L|exact B|exact H0|]. destruct Hor as [|(H1 & H2 & H3)]; [now left|right].
      split; [exact H1|]. rewrite H2. destruct (forest_coded _ _ _ _ Hf H3) as [m ->]. exists m. change (Z.of_nat 32) with 32. lia.
    - reflexivity.
    - intros i. rewrite Z0. lia.
    - reflexivity.
    - rewrite (o_cs _ _ _ _ Hf). lia.
    - right. split; reflexivity || (cbn; lia).
  Qed.

  Lemma safe_drop : forall i bits, length bits = 33%nat -> safe (fun b => length b = 33%nat) (drop_reserved P bits i).
  Proof.
    induction i as [|i IH]; intros bits Hl; cbn [drop_reserved]; destruct (_ =? 0).
    - destruct (dbg P) eqn:D; constructor; [now apply HD|exact HR].
    - eapply safe_bind; [apply safe_ck_u; [exact HO|exact HD|lia]|]. intros a _. constructor. now rewrite upd_length.
    - now apply IH.
    - eapply safe_bind; [apply safe_ck_u; [exact HO|exact HD|lia]|]. intros a _. constructor. now rewrite upd_length.
  Qed.

  Lemma safe_new_optimized freq : length freq = 257%nat -> safe tok (new_optimized P freq).
  Proof.
    intros Hf. unfold new_optimized. eapply safe_bind.
    - apply (safe_code_sizes 258 _ _ _ _ (forest_init freq Hf)). rewrite map_length, seq_length. lia.
    - intros cs (fr & ot & F & Hfo). eapply safe_bind; [apply (safe_count_sizes fr ot cs F Hfo)|]. intros b1 Hb1.
      eapply safe_bind; [unfold limit_lengths; apply (safe_levels 16 32 b1 eq_refl (le_n _) Hb1)|]. intros b2 Hb2.
      eapply safe_bind; [apply safe_drop; exact (b_len _ _ Hb2)|]. intros b3 Hb3. cbv zeta.
      eapply safe_bind; [apply safe_lookup; [exact HR|exact HO|exact HD|]|].
      + rewrite firstn_length. lia.
      + intros lt Hlt. constructor. exact Hlt.
  Qed.
End Opt.
