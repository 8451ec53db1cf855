(** The tables of new_optimized are optimal unless code lengths had to be limited to 16 bits. *)
From Verif Require Export PLimit PSegments.
From Verif Require Import PGreedy T81 SHuff.
From Coq Require Import ZifyBool ZifyNat Permutation.

(** ** The sorted list of code sizes belonging to counts per size *)
Fixpoint sz (L : Z) (r : list Z) : list Z :=
  match r with [] => [] | n :: r' => repeat L (Z.to_nat n) ++ sz (L + 1) r' end.
Fixpoint up (b : Z) (l : list Z) : Prop := match l with [] => True | x :: l' => b <= x /\ up x l' end.
Lemma up_weaken l a b : a <= b -> up b l -> up a l.
Proof. destruct l; cbn [up]; [tauto|]. intros H [A B]. split; [lia|exact B]. Qed.
Lemma up_repeat L n l : up L l -> up L (repeat L n ++ l).
Proof. induction n as [|n IH]; intros H; [exact H|]. cbn [repeat app up]. split; [lia|now apply IH]. Qed.
Lemma up_sz r : forall L, up L (sz L r).
Proof.
  induction r as [|n r IH]; intros L; [exact I|]. cbn [sz]. apply up_repeat. apply (up_weaken _ L (L + 1)); [lia|apply IH].
Qed.
Lemma sz_app a : forall L b, sz L (a ++ b) = sz L a ++ sz (L + Z.of_nat (length a)) b.
Proof.
  induction a as [|n a IH]; intros L b; [cbn [app sz length]; now rewrite Z.add_0_r|].
  cbn [app sz length]. rewrite IH, <- app_assoc. do 3 f_equal. lia.
Qed.
Lemma sz_zeros n : forall L, sz L (repeat 0 n) = [].
Proof. induction n as [|n IH]; intros L; [reflexivity|]. cbn [repeat sz]. apply IH. Qed.
Lemma sz_bound r : forall L x, In x (sz L r) -> L <= x < L + Z.of_nat (length r).
Proof.
  induction r as [|n r IH]; intros L x H; [destruct H|]. cbn [sz] in H. apply in_app_or in H as [H|H].
  - apply repeat_spec in H. subst. cbn [length]. lia.
  - apply IH in H. cbn [length]. lia.
Qed.
Lemma map_fst_pairs r : forall L c, map (fun p => Z.of_nat (fst p)) (pairs L c r) = sz (Z.of_nat L) r.
Proof.
  induction r as [|n r IH]; intros L c; [reflexivity|]. cbn [pairs sz]. rewrite map_app, map_map, IH. cbn [fst].
  f_equal; [|f_equal; lia]. generalize (seq_length (Z.to_nat n) 0). generalize (seq 0 (Z.to_nat n)). intros l <-.
  induction l as [|x l IHl]; [reflexivity|]. cbn [map length repeat]. now rewrite IHl.
Qed.

(** Removing the last size instead of another one makes no size larger. *)
Lemma removelast_le Y : forall j, up j Y -> Forall2 Z.le (removelast (j :: Y)) Y.
Proof.
  induction Y as [|y Y IH]; intros j H; [constructor|]. cbn [up] in H. destruct H as [H1 H2].
  change (removelast (j :: y :: Y)) with (j :: removelast (y :: Y)). constructor; [exact H1|now apply IH].
Qed.
Lemma Forall2_le_refl (l : list Z) : Forall2 Z.le l l. Proof. induction l; constructor; [lia|assumption]. Qed.
Lemma Forall2_app_le (a b c d : list Z) : Forall2 Z.le a b -> Forall2 Z.le c d -> Forall2 Z.le (a ++ c) (b ++ d).
Proof. induction 1; intros; [assumption|]. cbn [app]. constructor; auto. Qed.
Lemma drop_last_le L (u v : list Z) n : 0 <= n ->
  Forall2 Z.le (removelast (sz L (u ++ (n + 1) :: v))) (sz L (u ++ n :: v)).
Proof.
  intros Hn. rewrite !sz_app. cbn [sz]. replace (Z.to_nat (n + 1)) with (S (Z.to_nat n)) by lia. cbn [repeat app].
  rewrite removelast_app by discriminate. apply Forall2_app_le; [apply Forall2_le_refl|]. apply removelast_le.
  apply up_repeat. eapply up_weaken; [|apply up_sz]. lia.
Qed.
Definition sum (l : list Z) : Z := fold_right Z.add 0 l.
Lemma sum_cons x l : sum (x :: l) = x + sum l. Proof. reflexivity. Qed.
Lemma sum_app a b : sum (a ++ b) = sum a + sum b.
Proof. unfold sum. induction a as [|x a IH]; [cbn; lia|]. cbn [app fold_right]. lia. Qed.
Lemma sum_sz_more L (u v : list Z) n : 0 <= n -> sum (sz L (u ++ (n + 1) :: v)) = sum (sz L (u ++ n :: v)) + (L + Z.of_nat (length u)).
Proof.
  intros Hn. rewrite !sz_app. cbn [sz]. replace (Z.to_nat (n + 1)) with (S (Z.to_nat n)) by lia. cbn [repeat app].
  generalize (L + Z.of_nat (length u)) as x. intros x. rewrite !sum_app, sum_cons, sum_app. lia.
Qed.
Lemma sum_removelast l : l <> [] -> sum (removelast l) = sum l - last l 0.
Proof. intros H. rewrite (app_removelast_last 0 H) at 2. rewrite sum_app, sum_cons. change (sum []) with 0. lia. Qed.
Lemma up_last l : forall b, up b l -> l <> [] -> forall x, In x l -> x <= last l 0.
Proof.
  induction l as [|y l IH]; intros b H Hn x Hx; [congruence|]. cbn [up] in H. destruct H as [H1 H2].
  destruct l as [|z l]; [destruct Hx as [<-|[]]; cbn; lia|].
  change (last (y :: z :: l) 0) with (last (z :: l) 0). specialize (IH y H2 ltac:(discriminate)).
  destruct Hx as [<-|Hx]; [|now apply IH]. specialize (IH z (or_introl eq_refl)). cbn [up] in H2. lia.
Qed.
Lemma in_removelast {A} (l : list A) x : In x (removelast l) -> In x l.
Proof.
  induction l as [|y l IH]; [intros []|]. destruct l as [|z l]; [intros []|].
  change (removelast (y :: z :: l)) with (y :: removelast (z :: l)). intros [<-|H]; [now left|right; now apply IH].
Qed.
(** Taking one from the last non-zero count removes the last size. *)
Lemma sz_decr L u n k : 1 <= n -> sz L (u ++ (n - 1) :: repeat 0 k) = removelast (sz L (u ++ n :: repeat 0 k)).
Proof.
  intros Hn. rewrite !sz_app. cbn [sz]. rewrite !sz_zeros, !app_nil_r.
  replace (Z.to_nat n) with (S (Z.to_nat (n - 1))) by lia. rewrite removelast_app by discriminate. f_equal.
  generalize (Z.to_nat (n - 1)) (L + Z.of_nat (length u)). intros m x. clear.
  induction m as [|m IH]; [reflexivity|]. change (repeat x (S (S m))) with (x :: repeat x (S m)).
  change (removelast (x :: repeat x (S m))) with (x :: removelast (repeat x (S m))). rewrite <- IH. reflexivity.
Qed.

(** ** The limit: nothing happens without long codes; otherwise 16-bit codes remain *)
Lemma shorten_idle P fuel i b : nth i b 0 = 0 -> (0 < fuel)%nat -> shorten_level P fuel i b = Ret b.
Proof. intros H Hf. destruct fuel; [lia|]. cbn [shorten_level]. rewrite H. reflexivity. Qed.
Lemma limit_idle P b : forall l, (forall i, In i l -> nth i b 0 = 0) ->
  foldM (fun bits i => shorten_level P 257 i bits) l b = Ret b.
Proof.
  induction l as [|i l IH]; intros H; [reflexivity|]. cbn [foldM]. rewrite shorten_idle; [|apply H; now left|lia].
  cbn [bind]. apply IH. intros k Hk. apply H. now right.
Qed.

Lemma find_shorter_le P b : forall j k, find_shorter P b j = Ret k -> (k <= j)%nat /\ nth k b 0 <> 0.
Proof.
  induction j as [|j IH]; intros k; cbn [find_shorter].
  - destruct (nth 0 b 0 =? 0) eqn:E; [destruct (dbg P); discriminate|intros [= <-]; lia].
  - destruct (nth (S j) b 0 =? 0) eqn:E; [intros H; apply IH in H; lia|intros [= <-]; lia].
Qed.

Section Level.
  Variable N : Z.
  Variable HN : N <= 255.

  (** One step raises the count of the next shorter length. *)
  Lemma step_raises P b i j b' : good N b i -> (17 <= i <= 32)%nat -> 0 < nth i b 0 -> find_shorter P b (i - 2) = Ret j ->
    (let* a := ck_u P 8 (nth i b 0 - 2) in
       let bits := upd b i a in
       let* a := ck_u P 8 (nth (i - 1) bits 0 + 1) in
       let bits := upd bits (i - 1) a in
       let* a := ck_u P 8 (nth (j + 1) bits 0 + 2) in
       let bits := upd bits (j + 1) a in
       let* a := ck_u P 8 (nth j bits 0 - 1) in
       Ret (upd bits j a)) = Ret b' -> nth (i - 1) b 0 + 1 <= nth (i - 1) b' 0.
  Proof.
    intros G Hi Hp Hj. apply find_shorter_le in Hj as [Hj Hjn].
    pose proof (g_len _ _ _ G) as Gl. pose proof (g_nonneg _ _ _ G) as Gn.
    assert (Hb : forall k, (k < 33)%nat -> nth k b 0 <= N).
    { intros k Hk. apply (entry_le N b k Gl Gn (g_total _ _ _ G) Hk). }
    pose proof (Hb i ltac:(lia)) as Bi. pose proof (Hb (i - 1)%nat ltac:(lia)) as Bi1. pose proof (Gn (i - 1)%nat).
    assert (Le2 : nth (i - 1) b 0 + nth i b 0 <= N).
    { pose proof (entries_le N b [(i - 1)%nat; i] Gl Gn (g_total _ _ _ G)) as H'. cbn [lsum fold_right] in H'.
      assert (nth (i - 1) b 0 + (nth i b 0 + 0) <= N); [|lia]. apply H'.
      - constructor; [intros [E'|[]]; lia|]. constructor; [intros []|constructor].
      - constructor; [lia|constructor; [lia|constructor]]. }
    assert (2 <= nth i b 0).
    { destruct (deepest_even N b i G ltac:(lia)) as [x Hx]. lia. }
    rewrite ck_u_ret by (change (2 ^ 8) with 256; lia). cbn [bind]. cbv zeta.
    assert (N1 : nth (i - 1) (upd b i (nth i b 0 - 2)) 0 = nth (i - 1) b 0).
    { rewrite nth_upd. replace (i =? i - 1)%nat with false by lia. reflexivity. }
    rewrite N1. rewrite ck_u_ret by (change (2 ^ 8) with 256; lia). cbn [bind].
    set (b2 := upd (upd b i (nth i b 0 - 2)) (i - 1) (nth (i - 1) b 0 + 1)).
    assert (N2 : nth (i - 1) b2 0 = nth (i - 1) b 0 + 1).
    { unfold b2. rewrite nth_upd, upd_length, Gl. replace (i - 1 <? 33)%nat with true by lia. now rewrite Nat.eqb_refl. }
    destruct (ck_u P 8 (nth (j + 1) b2 0 + 2)) as [a3| | |] eqn:E3; cbn [bind]; try discriminate.
    destruct (ck_u P 8 (nth j (upd b2 (j + 1) a3) 0 - 1)) as [a4| | |]; cbn [bind]; try discriminate.
    intros [= <-]. rewrite nth_upd. replace (j =? i - 1)%nat with false by lia. cbn [andb].
    rewrite nth_upd. destruct ((j + 1 =? i - 1)%nat && (j + 1 <? length b2)%nat) eqn:E; [|lia].
    assert (j + 1 = i - 1)%nat as Ej by lia. rewrite Ej, N2 in E3.
    pose proof (entries3_le N b (i - 1) i j Gl Gn (g_total _ _ _ G) ltac:(lia) ltac:(lia) ltac:(lia) ltac:(lia) ltac:(lia) ltac:(lia)).
    specialize (Gn j). rewrite ck_u_ret in E3 by (change (2 ^ 8) with 256; lia). injection E3 as <-. lia.
  Qed.

  Lemma level_raises P i : (17 <= i <= 32)%nat -> forall fuel b b', good N b i -> nth i b 0 < Z.of_nat fuel ->
    shorten_level P fuel i b = Ret b' -> nth (i - 1) b 0 + (if 0 <? nth i b 0 then 1 else 0) <= nth (i - 1) b' 0.
  Proof.
    intros Hi. induction fuel as [|fuel IH]; intros b b' G Hf; [pose proof (g_nonneg _ _ _ G i); lia|].
    cbn [shorten_level]. destruct (0 <? nth i b 0) eqn:E; [|intros [= <-]; lia].
    destruct (shorten_step N HN P b i G Hi ltac:(lia)) as (j & b1 & Ej & Eb & G' & Hd).
    rewrite Ej. cbn [bind]. pose proof (step_raises P b i j b1 G Hi ltac:(lia) Ej Eb) as R.
    revert Eb. cbv zeta.
    destruct (ck_u P 8 (nth i b 0 - 2)) as [a1| | |]; cbn [bind]; try discriminate.
    destruct (ck_u P 8 (nth (i - 1) (upd b i a1) 0 + 1)) as [a2| | |]; cbn [bind]; try discriminate.
    destruct (ck_u P 8 (nth (j + 1) (upd (upd b i a1) (i - 1) a2) 0 + 2)) as [a3| | |]; cbn [bind]; try discriminate.
    destruct (ck_u P 8 (nth j (upd (upd (upd b i a1) (i - 1) a2) (j + 1) a3) 0 - 1)) as [a4| | |]; cbn [bind]; try discriminate.
    intros [= ->] H. apply IH in H; [|exact G'|lia]. destruct (0 <? nth i b1 0); lia.
  Qed.

  Lemma limit_leaves P : forall n b b', (n <= 16)%nat -> good N b (16 + n) -> (exists k, (16 <= k <= 16 + n)%nat /\ 0 < nth k b 0) ->
    foldM (fun bits i => shorten_level P 257 i bits) (rev (seq 17 n)) b = Ret b' -> 0 < nth 16 b' 0.
  Proof.
    induction n as [|n IH]; intros b b' Hn G (k & Hk & Hp).
    - intros [= <-]. replace 16%nat with k by lia. exact Hp.
    - rewrite seq_S, rev_app_distr. cbn [rev app foldM].
      assert (Hb : nth (17 + n) b 0 < 257).
      { pose proof (entry_le N b (17 + n) (g_len _ _ _ G) (g_nonneg _ _ _ G) (g_total _ _ _ G) ltac:(lia)). lia. }
      assert (G17 : good N b (17 + n)) by (replace (17 + n)%nat with (16 + S n)%nat by lia; exact G).
      destruct (shorten_level_ok N HN P (17 + n) ltac:(lia) 257 b G17 ltac:(lia)) as (b1 & E1 & G1).
      pose proof (level_raises P (17 + n) ltac:(lia) 257 b b1 G17 ltac:(lia) E1) as R.
      rewrite E1. cbn [bind]. replace (17 + n - 1)%nat with (16 + n)%nat in * by lia.
      intros H. apply (IH b1 b' ltac:(lia) G1); [|exact H].
      destruct (0 <? nth (17 + n) b 0) eqn:E.
      + exists (16 + n)%nat. split; [lia|]. pose proof (g_nonneg _ _ _ G (16 + n)). lia.
      + rewrite shorten_idle in E1; [|pose proof (g_nonneg _ _ _ G (17 + n)); lia|lia]. injection E1 as <-.
        exists k. split; [|exact Hp]. assert (k <> (17 + n)%nat) by (intros ->; lia). lia.
  Qed.
End Level.

(** ** What new_optimized made *)
Lemma drop_last_spec P N b : good N b 16 -> N <= 255 ->
  exists i, (1 <= i <= 16)%nat /\ 1 <= nth i b 0 /\ (forall k, (i < k)%nat -> nth k b 0 = 0) /\ drop_reserved P b 16 = Ret (addat b i (-1)).
Proof.
  intros G HN. destruct (drop_spec P N b G HN) as (i & Hi & Hp & E). exists i. split; [exact Hi|]. split; [exact Hp|].
  split; [|exact E].
  assert (D : forall j, (exists i', (i' <= j)%nat /\ (forall k, (i' < k <= j)%nat -> nth k b 0 = 0) /\
      drop_reserved P b j = let* a := ck_u P 8 (nth i' b 0 - 1) in Ret (upd b i' a)) \/ exists r, drop_reserved P b j = Panic r).
  { induction j as [|j IH]; cbn [drop_reserved].
    - destruct (nth 0 b 0 =? 0) eqn:E0.
      + first [right; eexists; reflexivity | left; exists 0%nat; split; [lia|]; split; [intros; lia|reflexivity]].
      + left. exists 0%nat. split; [lia|]. split; [intros; lia|reflexivity].
    - destruct (nth (S j) b 0 =? 0) eqn:E0.
      + destruct IH as [(i' & A & B & C)|(r & R)]; [left|right; exists r; exact R].
        exists i'. split; [lia|]. split; [|exact C]. intros k Hk. destruct (Nat.eq_dec k (S j)) as [->|]; [lia|]. apply B. lia.
      + left. exists (S j). split; [lia|]. split; [intros; lia|reflexivity]. }
  destruct (D 16%nat) as [(i' & A & B & C)|(r & R)]; [|rewrite R in E; discriminate E].
  intros k Hk. destruct (Nat.le_gt_cases k 16) as [H16|H16]; [|apply (g_above _ _ _ G); lia].
  assert (i' = i); [|subst; apply B; lia].
  rewrite C in E. destruct (ck_u P 8 (nth i' b 0 - 1)) as [a| | |] eqn:Ea; cbn [bind] in E; try discriminate E.
  injection E as E. destruct (Nat.eq_dec i' i) as [|Ne]; [assumption|exfalso].
  assert (X : nth i (upd b i' a) 0 = nth i (addat b i (-1)) 0) by now rewrite E.
  pose proof (g_len _ _ _ G). rewrite nth_addat in X by lia. destruct (Nat.eq_dec i i); [|lia].
  rewrite nth_upd in X. replace (i' =? i)%nat with false in X by lia. cbn [andb] in X. lia.
Qed.

Lemma upd_split (b : list Z) : forall j x, (j < length b)%nat -> upd b j x = firstn j b ++ x :: skipn (S j) b.
Proof.
  induction b as [|y b IH]; intros j x H; [cbn in H; lia|]. destruct j as [|j]; [reflexivity|].
  cbn [upd firstn skipn app]. f_equal. apply IH. cbn in H. lia.
Qed.
Lemma nth_split_at (b : list Z) : forall j, (j < length b)%nat -> b = firstn j b ++ nth j b 0 :: skipn (S j) b.
Proof.
  induction b as [|y b IH]; intros j H; [cbn in H; lia|]. destruct j as [|j]; [reflexivity|].
  cbn [nth firstn skipn app]. f_equal. apply IH. cbn in H. lia.
Qed.
Lemma all_zero (l : list Z) : (forall k, nth k l 0 = 0) -> l = repeat 0 (length l).
Proof.
  induction l as [|x l IH]; intros H; [reflexivity|]. cbn [length repeat]. f_equal; [exact (H 0%nat)|]. apply IH.
  intros k. exact (H (S k)).
Qed.
Lemma nth_skipn_at (b : list Z) n k : nth k (skipn n b) 0 = nth (n + k) b 0.
Proof.
  revert b. induction n as [|n IH]; intros b; [reflexivity|]. destruct b as [|x b]; [destruct k; reflexivity|]. apply IH.
Qed.
Lemma sz_skip b : nth 0 b 0 = 0 -> sz 0 b = sz 1 (skipn 1 b).
Proof. destruct b as [|x b]; [reflexivity|]. cbn [nth skipn sz]. intros ->. reflexivity. Qed.
Lemma wsum_at b k : (k < 33)%nat -> wsum (fun m => if Nat.eq_dec m k then 1 else 0) b = nth k b 0.
Proof.
  intros Hk. unfold wsum. rewrite (lsum_ext _ (fun m => if Nat.eq_dec m k then nth m b 0 else 0)).
  - rewrite (lsum_single (fun m => nth m b 0)); [reflexivity|apply seq_NoDup|apply in_seq; lia].
  - intros s _. destruct (Nat.eq_dec s k); lia.
Qed.

(** Sizes of the lengths after the reserved code is dropped *)
Lemma dropped_sizes b i : length b = 33%nat -> nth 0 b 0 = 0 -> (1 <= i <= 16)%nat -> 1 <= nth i b 0 -> (forall k, (i < k)%nat -> nth k b 0 = 0) ->
  sz 1 (firstn 16 (skipn 1 (addat b i (-1)))) = removelast (sz 0 b).
Proof.
  intros Hl H0 Hi Hp Hz.
  assert (Sk : skipn (S i) b = repeat 0 (32 - i)).
  { rewrite (all_zero (skipn (S i) b)); [rewrite skipn_length; f_equal; lia|].
    intros k. rewrite nth_skipn_at. apply Hz. lia. }
  assert (E1 : sz 0 (addat b i (-1)) = removelast (sz 0 b)).
  { unfold addat. rewrite upd_split by lia. replace (sz 0 b) with (sz 0 (firstn i b ++ nth i b 0 :: skipn (S i) b)) by (rewrite <- nth_split_at by lia; reflexivity). rewrite Sk.
    replace (nth i b 0 + -1) with (nth i b 0 - 1) by lia. now apply sz_decr. }
  rewrite <- E1. set (d := addat b i (-1)) in *.
  assert (Nd : forall m, nth m d 0 = nth m b 0 + (if Nat.eq_dec m i then -1 else 0)) by (intros; unfold d; apply nth_addat; lia).
  assert (Ld : length d = 33%nat) by (unfold d; now rewrite addat_length).
  rewrite (sz_skip d) by (rewrite Nd, H0; destruct (Nat.eq_dec 0 i); lia).
  rewrite <- (firstn_skipn 16 (skipn 1 d)) at 2. rewrite sz_app.
  rewrite (all_zero (skipn 16 (skipn 1 d))), sz_zeros, app_nil_r; [reflexivity|].
  intros k. rewrite !nth_skipn_at, Nd, Hz by lia. destruct (Nat.eq_dec _ i); lia.
Qed.

(** Sizes of the sorted symbols *)
Definition size_count (cs : list Z) (k : Z) : Z := Z.of_nat (length (filter (fun j => zn cs j =? k) (zrange 256))).
Lemma sorted_sizes cs : map (zn cs) (sort_values cs) = sz 1 (map (size_count cs) (zseg 1 33)).
Proof.
  unfold sort_values. rewrite concat_map, map_map.
  assert (F : forall i, map (zn cs) (filter (fun j => zn cs j =? i) (zrange 256)) = repeat i (Z.to_nat (size_count cs i))).
  { intros i. unfold size_count. rewrite Nat2Z.id. generalize (zrange 256). intros l.
    induction l as [|x l IH]; [reflexivity|]. cbn [filter]. destruct (zn cs x =? i) eqn:E; [|exact IH].
    cbn [map length repeat]. rewrite IH. f_equal. lia. }
  rewrite (map_ext _ _ F). unfold zseg. change (33 - 1) with 32. unfold zrange. change (Z.to_nat 32) with 32%nat.
  assert (G : forall n k, concat (map (fun i => repeat i (Z.to_nat (size_count cs i))) (map (fun i => 1 + i) (map Z.of_nat (seq k n)))) =
    sz (1 + Z.of_nat k) (map (size_count cs) (map (fun i => 1 + i) (map Z.of_nat (seq k n))))).
  { induction n as [|n IH]; intros k; [reflexivity|]. cbn [seq map concat sz]. f_equal. rewrite IH. f_equal. lia. }
  exact (G 32%nat 0%nat).
Qed.

Lemma Forall2_cost (f : Z -> Z) (a b : list Z) : Forall2 Z.le a b -> forall vs, length b = length vs -> (forall v, In v vs -> 1 <= f v) ->
  sum (map (fun p => f (snd p) * fst p) (combine a vs)) + (sum b - sum a) <= sum (map (fun p => f (snd p) * fst p) (combine b vs)).
Proof.
  induction 1 as [|x y a b H HF IH]; intros vs Hl Hf; [cbn; lia|]. destruct vs as [|v vs]; [discriminate Hl|].
  cbn [length] in Hl. specialize (IH vs ltac:(lia) (fun u Hu => Hf u (or_intror Hu))). specialize (Hf v (or_introl eq_refl)).
  unfold sum in *. cbn [combine map fold_right fst snd]. assert (f v * x + (y - x) <= f v * y) by nia. lia.
Qed.

Lemma size_count_none cs k : (forall x, nth x cs 0 <> k) -> size_count cs k = 0.
Proof.
  intros H. unfold size_count.
  assert (E : filter (fun j => zn cs j =? k) (zrange 256) = []).
  { destruct (filter _ _) as [|x l] eqn:E; [reflexivity|exfalso].
    assert (Hx : In x (x :: l)) by now left. rewrite <- E in Hx. apply filter_In in Hx as [_ Hx].
    unfold zn in Hx. specialize (H (Z.to_nat x)). lia. }
  rewrite E. reflexivity.
Qed.
Lemma count_list (f : Z -> Z) : exists cnt, length cnt = 33%nat /\ nth 0 cnt 0 = 0 /\
  (forall k, (1 <= k < 33)%nat -> nth k cnt 0 = f (Z.of_nat k)) /\ sz 1 (map f (zseg 1 33)) = sz 0 cnt.
Proof.
  exists (0 :: map f (zseg 1 33)). split; [reflexivity|]. split; [reflexivity|]. split; [|].
  - intros k Hk. do 33 (destruct k as [|k]; [first [lia|reflexivity]|]). lia.
  - generalize (map f (zseg 1 33)). intros l. reflexivity.
Qed.
Lemma sizes_le_of cnt bits j : length cnt = 33%nat -> length bits = 33%nat -> (1 <= j < 33)%nat -> 0 <= nth j cnt 0 ->
  (forall k, (k < 33)%nat -> nth k bits 0 = nth k cnt 0 + (if Nat.eq_dec k j then 1 else 0)) ->
  Forall2 Z.le (removelast (sz 0 bits)) (sz 0 cnt) /\ sum (sz 0 bits) = sum (sz 0 cnt) + Z.of_nat j /\ sz 0 bits <> [].
Proof.
  intros Lc Lb Hj Hn H.
  assert (Eb : bits = addat cnt j 1).
  { apply nth_ext with (d := 0) (d' := 0); [rewrite addat_length; congruence|]. intros k Hk. rewrite Lb in Hk.
    rewrite nth_addat by lia. now apply H. }
  rewrite Eb. clear Eb H. unfold addat. rewrite upd_split by lia.
  replace (sz 0 cnt) with (sz 0 (firstn j cnt ++ nth j cnt 0 :: skipn (S j) cnt)) by (rewrite <- nth_split_at by lia; reflexivity).
  split; [now apply drop_last_le|]. split.
  - rewrite sum_sz_more by exact Hn. rewrite firstn_length. f_equal. lia.
  - rewrite sz_app. cbn [sz]. replace (Z.to_nat (nth j cnt 0 + 1)) with (S (Z.to_nat (nth j cnt 0))) by lia. cbn [repeat app].
    intros E. apply app_eq_nil in E as [_ E]. discriminate E.
Qed.

Lemma NoDup_map_in {A B} (f : A -> B) (l : list A) : (forall x y, In x l -> In y l -> f x = f y -> x = y) -> NoDup l -> NoDup (map f l).
Proof.
  intros Hf Hn. induction Hn as [|x l Hx Hn IH]; cbn [map]; [constructor|]. constructor.
  - intros H. apply in_map_iff in H as (y & E & Hy). apply Hx. replace x with y; [exact Hy|]. apply Hf; [now right|now left|exact E].
  - apply IH. intros a b Ha Hb. apply Hf; now right.
Qed.

Section Optimal.
  Variable freq : list Z.
  Variable Hlen : length freq = 257%nat.
  Variable Hnn : forall s, 0 <= nth s freq 0.
  Variable Htot : fold_right Z.add 0 freq < 4294967296.
  Variable Hres : 0 < nth 256 freq 0.
  Variable Hused : (1 <= length (used freq) <= 254)%nat.
  Let N := Z.of_nat (S (length (used freq))).

  Record made (P : platform) (t : htab) (cs bits bits1 : list Z) (i : nat) : Prop := {
    m_cs : code_sizes_loop P 258 freq (repeat (-1) 257) (repeat 0 257) = Ret cs;
    m_len : length cs = 257%nat;
    m_live : forall k, 0 < w0 freq k -> 1 <= nth k cs 0 <= 32;
    m_dead : forall k, w0 freq k = 0 -> nth k cs 0 = 0;
    m_bits : good N bits 32;
    m_wsum : forall w, wsum w bits = psum w cs;
    m_limit : foldM (fun bits i => shorten_level P 257 i bits) (rev (seq 17 16)) bits = Ret bits1;
    m_bits1 : good N bits1 16;
    m_i : (1 <= i <= 16)%nat;
    m_at : 1 <= nth i bits1 0;
    m_above : forall k, (i < k)%nat -> nth k bits1 0 = 0;
    m_lens : h_length t = firstn 16 (skipn 1 (addat bits1 i (-1)));
    m_vals : h_values t = sort_values cs
  }.

  Lemma made_by P t : emits (new_optimized P freq) [] t -> exists cs bits bits1 i, made P t cs bits bits1 i.
  Proof.
    intros Em.
    destruct (code_sizes_ok freq Hlen Hnn (total_weight freq Hlen Hnn Htot Hused) P) as (cs & Ecs & Lcs & Hlive' & _ & Hdead & Hk').
    { rewrite (live_length freq Hlen Hres). lia. }
    destruct (Forall_Exists_dec (fun s => s <= 32) (fun s => Z_le_dec s 32) cs) as [A|A].
    2:{ exfalso. destruct (new_optimized_cases freq Hlen Hnn Htot Hres Hused P) as [(t' & tb & Et & _)|Hp].
        - assert (Nn : Forall (fun s => 0 <= s) cs).
          { apply Forall_forall. intros x Hx. apply In_nth with (d := 0) in Hx as (i & _ & <-).
            destruct (Z.eq_dec (w0 freq i) 0) as [E|E]; [rewrite (Hdead i E); lia|].
            assert (0 < w0 freq i) as W by (specialize (Hnn i); unfold w0 in *; lia). specialize (Hlive' i W). lia. }
          unfold new_optimized in Et. rewrite Ecs in Et. cbn [bind] in Et. unfold count_sizes in Et.
          rewrite count_fold_deep in Et; [cbn [bind] in Et; discriminate Et|exact Nn|apply repeat_length|exact A| |].
          + intros k. rewrite nth_repeat. lia.
          + assert (Wz : total (repeat 0 33) = 0).
            { unfold total, wsum. apply lsum_zero. intros k _. rewrite nth_repeat. lia. }
            rewrite Wz. rewrite (psum_lsum freq Hlen Hnn Hused), Lcs.
            assert (El : lsum (fun s => if 0 <? w0 freq s then 1 else 0) (seq 0 257) = Z.of_nat (S (length (used freq)))).
            { rewrite <- (live_length freq Hlen Hres), <- (lsum_one freq Hlen Hnn Hused). unfold live0. apply (lsum_filter (fun _ => 1) (fun s => 0 <? w0 freq s)). }
            rewrite (lsum_ext _ (fun s => if 0 <? w0 freq s then 1 else 0)); [rewrite El; lia|].
            intros s _. destruct (Z.eq_dec (w0 freq s) 0) as [E|E]; [rewrite E, (Hdead s E); reflexivity|].
            assert (0 < w0 freq s) as W by (specialize (Hnn s); unfold w0 in *; lia). specialize (Hlive' s W).
            replace (0 <? nth s cs 0) with true by lia. replace (0 <? w0 freq s) with true by lia. reflexivity.
        - rewrite Hp in Em. discriminate Em. }
    assert (H32 : forall i, nth i cs 0 <= 32).
    { intros i. destruct (Nat.lt_ge_cases i (length cs)) as [H|H]; [|rewrite nth_overflow by exact H; lia].
      rewrite Forall_forall in A. apply A, nth_In, H. }
    assert (Hlive : forall i, 0 < w0 freq i -> 1 <= nth i cs 0 <= 32).
    { intros i Hi. specialize (Hlive' i Hi). specialize (H32 i). lia. }
    assert (Hk : lsum (fun s => 2 ^ (32 - nth s cs 0)) (live0 freq) = 2 ^ 32).
    { apply (Z.mul_reg_l _ _ (2 ^ 13)); [lia|]. rewrite <- lsum_scale. change (2 ^ 13 * 2 ^ 32) with (2 ^ 45).
      rewrite <- Hk'. apply lsum_ext. intros s Hs. specialize (H32 s). rewrite <- Z.pow_add_r by lia. f_equal. lia. }
    assert (Hcs : Forall (fun s => 0 <= s <= 32) cs).
    { apply Forall_forall. intros x Hx. apply In_nth with (d := 0) in Hx as (i & _ & <-).
      destruct (Z.eq_dec (w0 freq i) 0) as [E|E]; [rewrite (Hdead i E); lia|].
      assert (0 < w0 freq i) as W by (specialize (Hnn i); unfold w0 in *; lia). specialize (Hlive i W). lia. }
    assert (Hps : forall w, psum w cs = lsum (fun s => w (Z.to_nat (nth s cs 0))) (live0 freq)).
    { intros w. rewrite (psum_lsum freq Hlen Hnn Hused), Lcs. unfold live0. rewrite <- lsum_filter. apply lsum_ext. intros s _.
      destruct (Z.eq_dec (w0 freq s) 0) as [E|E].
      - rewrite E, (Hdead s E). reflexivity.
      - assert (0 < w0 freq s) as W by (specialize (Hnn s); unfold w0 in *; lia). specialize (Hlive s W).
        replace (0 <? nth s cs 0) with true by lia. replace (0 <? w0 freq s) with true by lia. reflexivity. }
    assert (Hp1 : psum (fun _ => 1) cs = N) by (rewrite Hps, (lsum_one freq Hlen Hnn Hused), (live_length freq Hlen Hres); reflexivity).
    assert (Z33 : forall k, nth k (repeat 0 33) 0 = 0) by (intros; apply nth_repeat).
    assert (Wz : forall w, wsum w (repeat 0 33) = 0).
    { intros w. unfold wsum. apply lsum_zero. intros k _. rewrite Z33. lia. }
    destruct (count_fold P cs (repeat 0 33) Hcs (repeat_length _ _)) as (bits & Eb & Lb & Nb & B0 & Wb).
    { intros k. rewrite Z33. lia. } { unfold total. rewrite Wz, Hp1. unfold N. lia. }
    assert (G : good N bits 32).
    { constructor.
      - exact Lb.
      - exact Nb.
      - rewrite B0. apply Z33.
      - unfold total. now rewrite Wb, Wz, Hp1.
      - unfold kraft. rewrite Wb, Wz, Hps, Z.add_0_l. rewrite <- Hk. apply lsum_ext. intros s Hs.
        apply (live0_in freq Hlen) in Hs; [|exact Hnn]. specialize (Hlive s Hs). unfold kw. rewrite ?Z2Nat.id by lia. reflexivity.
      - intros k Hk1. apply nth_overflow. lia. }
    destruct (limit_ok N ltac:(unfold N; lia) P 16 bits (le_n _) G) as (bits1 & E1 & G1).
    destruct (drop_last_spec P N bits1 G1 ltac:(unfold N; lia)) as (i & Hi & Hp & Ha & E2).
    assert (Eh : h_length t = firstn 16 (skipn 1 (addat bits1 i (-1))) /\ h_values t = sort_values cs).
    { unfold new_optimized in Em. rewrite Ecs in Em. cbn [bind] in Em. unfold count_sizes in Em. rewrite Eb in Em. cbn [bind] in Em.
      unfold limit_lengths in Em. rewrite E1 in Em. cbn [bind] in Em. rewrite E2 in Em. cbn [bind] in Em. cbv zeta in Em.
      apply emits_bind_inv in Em as (o1 & lt & o2 & _ & Em & _). unfold emits in Em. cbn [exec] in Em. injection Em as _ Em.
      rewrite <- Em. split; reflexivity. }
    exists cs, bits, bits1, i. constructor; try assumption.
    - intros w. rewrite Wb, Wz. lia.
    - apply Eh.
    - apply Eh.
  Qed.

  (** Counts per size, with and without the reserved symbol *)
  Lemma bits_counts P t cs bits bits1 i : made P t cs bits bits1 i -> forall k, (1 <= k < 33)%nat ->
    nth k bits 0 = size_count cs (Z.of_nat k) + (if Z.eq_dec (nth 256 cs 0) (Z.of_nat k) then 1 else 0).
  Proof.
    intros M k Hk. rewrite <- (wsum_at bits k) by lia. rewrite (m_wsum _ _ _ _ _ _ M).
    rewrite (psum_lsum freq Hlen Hnn Hused), (m_len _ _ _ _ _ _ M).
    change (seq 0 257) with (seq 0 256 ++ [256%nat]). rewrite lsum_app. f_equal.
    - unfold size_count, zrange. change (Z.to_nat 256) with 256%nat. rewrite filter_map_of_nat, map_length.
      rewrite <- (lsum_one freq Hlen Hnn Hused), <- lsum_filter. apply lsum_ext. intros s _. unfold zn. rewrite Nat2Z.id.
      destruct (nth s cs 0 =? Z.of_nat k) eqn:E.
      + replace (0 <? nth s cs 0) with true by lia. destruct (Nat.eq_dec _ k); lia.
      + destruct (0 <? nth s cs 0) eqn:E0; [|reflexivity]. destruct (Nat.eq_dec _ k); lia.
    - cbn [lsum fold_right]. rewrite Z.add_0_r. destruct (Z.eq_dec (nth 256 cs 0) (Z.of_nat k)) as [E|E].
      + replace (0 <? nth 256 cs 0) with true by lia. destruct (Nat.eq_dec _ k); lia.
      + destruct (0 <? nth 256 cs 0) eqn:E0; [|reflexivity]. destruct (Nat.eq_dec _ k); lia.
  Qed.

  Lemma sizes_le P t cs bits bits1 i : made P t cs bits bits1 i -> (forall k, nth k cs 0 <= 16) ->
    Forall2 Z.le (sz 1 (h_length t)) (map (zn cs) (h_values t)) /\
    exists m, sum (map (zn cs) (h_values t)) + nth 256 cs 0 = sum (sz 1 (h_length t)) + m /\ forall x, In x (sz 1 (h_length t)) -> x <= m.
  Proof.
    intros M H16. pose proof (bits_counts P t cs bits bits1 i M) as Bc.
    destruct M as [Mcs Mlen Mlive Mdead Mbits Mwsum Mlimit Mbits1 Mi Mat Mabove Mlens Mvals].
    pose proof (Mlive 256%nat Hres) as L256. specialize (H16 256%nat) as H256.
    assert (Idle : bits1 = bits).
    { rewrite limit_idle in Mlimit; [now injection Mlimit|]. intros k Hk. apply in_rev, in_seq in Hk.
      rewrite Bc by lia. rewrite size_count_none by (intros x; specialize (H16 x); lia).
      destruct (Z.eq_dec (nth 256 cs 0) (Z.of_nat k)); lia. }
    subst bits1. rewrite Mlens, Mvals, sorted_sizes.
    pose proof (g_len _ _ _ Mbits) as Lb. pose proof (g_zero _ _ _ Mbits) as B0.
    rewrite dropped_sizes by assumption.
    assert (Hnc : forall k, 0 <= size_count cs k) by (intros; unfold size_count; lia).
    destruct (count_list (size_count cs)) as (cnt & Lc & C0 & Nc & Ec). rewrite Ec.
    destruct (sizes_le_of cnt bits (Z.to_nat (nth 256 cs 0))) as (A & B & C); [exact Lc|exact Lb|lia| | |].
    - rewrite Nc by lia. apply Hnc.
    - intros k Hk. destruct k as [|k].
      + rewrite B0, C0. destruct (Nat.eq_dec 0 (Z.to_nat (nth 256 cs 0))); lia.
      + rewrite Bc, Nc by lia. f_equal. destruct (Z.eq_dec _ _), (Nat.eq_dec _ _); lia.
    - split; [exact A|]. exists (last (sz 0 bits) 0). rewrite sum_removelast by exact C. split; [lia|].
      intros x Hx. apply in_removelast in Hx. exact (up_last _ 0 (up_sz _ _) C x Hx).
  Qed.

  Lemma size_count_some cs k : (k < 256)%nat -> 1 <= size_count cs (nth k cs 0).
  Proof.
    intros Hk. unfold size_count.
    assert (Hi : In (Z.of_nat k) (filter (fun j => zn cs j =? nth k cs 0) (zrange 256))).
    { apply filter_In. split; [apply in_zrange; lia|]. unfold zn. rewrite Nat2Z.id. lia. }
    destruct (filter _ _) as [|x l]; [destruct Hi|]. cbn [length]. lia.
  Qed.

  (** Without a 16-bit code no length was limited. *)
  Lemma no_long_codes P t cs bits bits1 i : made P t cs bits bits1 i -> nth 15 (h_length t) 0 = 0 -> forall k, nth k cs 0 <= 16.
  Proof.
    intros M H15 k. pose proof (bits_counts P t cs bits bits1 i M) as Bc.
    destruct M as [Mcs Mlen Mlive Mdead Mbits Mwsum Mlimit Mbits1 Mi Mat Mabove Mlens Mvals].
    destruct (Z_le_gt_dec (nth k cs 0) 16) as [H|H]; [exact H|exfalso].
    destruct (Nat.lt_ge_cases k 257) as [Hk|Hk]; [|rewrite nth_overflow in H by lia; lia].
    assert (Hc : nth k cs 0 <= 32).
    { destruct (Z.eq_dec (w0 freq k) 0) as [E|E]; [rewrite (Mdead k E); lia|].
      apply Mlive. specialize (Hnn k). unfold w0 in *. lia. }
    assert (HN : N <= 255) by (unfold N; lia).
    assert (Hx : 0 < nth (Z.to_nat (nth k cs 0)) bits 0).
    { rewrite Bc by lia. rewrite Z2Nat.id by lia. destruct (Nat.eq_dec k 256) as [->|Hk6].
      - destruct (Z.eq_dec _ _); [|lia]. unfold size_count. lia.
      - pose proof (size_count_some cs k ltac:(lia)). destruct (Z.eq_dec _ _); lia. }
    assert (H16 : 0 < nth 16 bits1 0).
    { apply (limit_leaves N HN P 16 bits bits1 (le_n _) Mbits); [|exact Mlimit].
      exists (Z.to_nat (nth k cs 0)). split; [lia|exact Hx]. }
    destruct (deepest_even N bits1 16 Mbits1 ltac:(lia)) as [q Hq].
    assert (i = 16)%nat as ->. { destruct (Nat.eq_dec i 16) as [|Ne]; [assumption|]. specialize (Mabove 16%nat ltac:(lia)). lia. }
    pose proof (g_len _ _ _ Mbits1) as L1.
    rewrite Mlens, firstn_skipn_nth in H15 by (rewrite addat_length; lia). cbn [seq map nth] in H15.
    rewrite nth_addat in H15 by lia. destruct (Nat.eq_dec 16 16); lia.
  Qed.

  (** What the table costs *)
  Lemma made_cost P t tb : emits (new_optimized P freq) [] t -> build_table (h_length t) (h_values t) = Some tb ->
    fold_right Z.add 0 freq < 4181 \/ nth 15 (h_length t) 0 = 0 ->
    nth 256 freq 0 = 1 -> exists c, greedy (map (w0 freq) (live0 freq)) c /\ code_bits freq tb + longest tb <= c.
  Proof.
    intros Em Hb Hsmall Hres1. destruct (made_by P t Em) as (cs & bits & bits1 & i & M).
    destruct (code_sizes_cost freq Hlen Hnn (total_weight freq Hlen Hnn Htot Hused) P cs (m_cs _ _ _ _ _ _ M)) as [Hg Hd].
    assert (H16 : forall k, nth k cs 0 <= 16).
    { destruct Hsmall as [Hs|Hs]; [|exact (no_long_codes P t cs bits bits1 i M Hs)].
      intros k. apply (Hd 16%nat). rewrite total_weight_eq by assumption. exact Hs. }
    exists (spent freq cs). split; [exact Hg|].
    destruct (sizes_le P t cs bits bits1 i M H16) as [Hle (m & Hm & Hmax)].
    apply build_table_inv in Hb as (L16 & Hnd & Hv & Hpl & ->).
    pose proof (Forall2_cost (fun v => nth (Z.to_nat v) freq 0) _ _ Hle (h_values t) (map_length _ _)) as HC. cbv beta in HC.
    assert (Hge : forall v, In v (h_values t) -> 1 <= nth (Z.to_nat v) freq 0).
    { intros v Hin. rewrite (m_vals _ _ _ _ _ _ M) in Hin. apply sort_values_in in Hin as [_ Hin]. unfold zn in Hin.
      pose proof (m_dead _ _ _ _ _ _ M (Z.to_nat v)) as Hd'. specialize (Hnn (Z.to_nat v)). unfold w0 in Hd'. lia. }
    specialize (HC Hge). unfold sum at 1 4 in HC.
    assert (E1 : code_bits freq (combine (map (fun p => bits_of (fst p) (snd p)) (pairs 1 0 (h_length t))) (h_values t)) =
      fold_right Z.add 0 (map (fun p => nth (Z.to_nat (snd p)) freq 0 * fst p) (combine (sz 1 (h_length t)) (h_values t)))).
    { unfold code_bits. f_equal. rewrite <- (map_fst_pairs (h_length t) 1 0 : _ = sz 1 (h_length t)).
      generalize (pairs 1 0 (h_length t)). generalize (h_values t). intros vs ps. revert vs.
      induction ps as [|p ps IH]; intros vs; [reflexivity|]. destruct vs as [|v vs]; [reflexivity|].
      cbn [map combine fst snd]. rewrite IH, bits_of_length. reflexivity. }
    assert (E0 : longest (combine (map (fun p => bits_of (fst p) (snd p)) (pairs 1 0 (h_length t))) (h_values t)) <= m).
    { assert (H0m : 0 <= m).
      { specialize (Hge 0). pose proof (m_live _ _ _ _ _ _ M 256%nat Hres) as L256.
        assert (sum (sz 1 (h_length t)) <= sum (map (zn cs) (h_values t))); [|lia].
        clear - Hle. unfold sum. induction Hle; cbn [fold_right]; lia. }
      rewrite <- (map_fst_pairs (h_length t) 1 0 : _ = sz 1 (h_length t)) in Hmax. unfold longest.
      revert Hmax. generalize (pairs 1 0 (h_length t)). generalize (h_values t). clear - H0m. intros vs ps. revert vs.
      induction ps as [|p ps IH]; intros vs Hmax; [cbn; lia|]. destruct vs as [|v vs]; [cbn; lia|].
      cbn [map combine fst snd fold_right]. rewrite bits_of_length.
      specialize (IH vs (fun x Hx => Hmax x (or_intror Hx))). specialize (Hmax _ (or_introl eq_refl)). cbv beta in Hmax. lia. }
    rewrite E1. clear E1.
    assert (E2 : fold_right Z.add 0 (map (fun p => nth (Z.to_nat (snd p)) freq 0 * fst p) (combine (map (zn cs) (h_values t)) (h_values t)))
      = lsum (fun s => w0 freq s * nth s cs 0) (map Z.to_nat (h_values t))).
    { generalize (h_values t). intros vs. induction vs as [|v vs IH]; [reflexivity|].
      cbn [map combine fold_right lsum fst snd]. unfold lsum in IH. rewrite IH. reflexivity. }
    rewrite E2 in HC. clear E2.
    assert (E3 : lsum (fun s => w0 freq s * nth s cs 0) (map Z.to_nat (h_values t)) + nth 256 freq 0 * nth 256 cs 0 <= spent freq cs).
    { unfold spent. change (seq 0 257) with (seq 0 256 ++ [256%nat]). rewrite lsum_app.
      assert (L1 : lsum (fun s => w0 freq s * nth s cs 0) [256%nat] = nth 256 freq 0 * nth 256 cs 0).
      { cbn [lsum fold_right]. unfold w0. lia. }
      rewrite L1. apply Z.add_le_mono_r. apply lsum_incl.
      - apply NoDup_map_in; [|exact Hnd]. intros x y Hx Hy. rewrite (m_vals _ _ _ _ _ _ M) in Hx, Hy.
        apply sort_values_in in Hx. apply sort_values_in in Hy. lia.
      - intros s Hs. apply in_map_iff in Hs as (x & <- & Hx). rewrite (m_vals _ _ _ _ _ _ M) in Hx. apply sort_values_in in Hx.
        apply in_seq. lia.
      - intros s _. specialize (Hnn s). unfold w0 in *. pose proof (m_live _ _ _ _ _ _ M s). unfold w0 in *.
        pose proof (m_dead _ _ _ _ _ _ M s). unfold w0 in *. nia. }
    lia.
  Qed.
End Optimal.

(** ** Every table pays at least Huffman's price *)
Lemma valid_kraft r : forall L c, valid L c r -> (L + length r = 17)%nat -> (1 <= L)%nat -> 0 <= c < 2 ^ Z.of_nat L -> r <> [] ->
  c * 2 ^ (16 - Z.of_nat L) + PLimit.ksum L r <= 2 ^ 16 - 1.
Proof.
  induction r as [|n r IH]; intros L c Hv Hl HL Hc Hr; [congruence|]. inversion Hv as [|? ? ? ? Hn Hcn Hv']; subst.
  cbn [PLimit.ksum length] in *.
  assert (P1 : 2 ^ Z.of_nat (S L) = 2 * 2 ^ Z.of_nat L) by (rewrite Nat2Z.inj_succ, Z.pow_succ_r by lia; reflexivity).
  destruct r as [|m r].
  - cbn [length PLimit.ksum] in *. assert (L = 16%nat) as -> by lia. change (2 ^ (16 - Z.of_nat 16)) with 1.
    change (2 ^ Z.of_nat 16) with 65536 in *. change (2 ^ 16) with 65536. lia.
  - assert (P2 : 2 ^ (16 - Z.of_nat L) = 2 * 2 ^ (16 - Z.of_nat (S L))).
    { rewrite <- Z.pow_succ_r by (cbn [length] in Hl; lia). f_equal. lia. }
    specialize (IH (S L) (2 * (c + n)) Hv' ltac:(lia) ltac:(lia)). rewrite P1 in IH.
    specialize (IH ltac:(destruct Hcn; lia) ltac:(discriminate)). rewrite P2. lia.
Qed.

Lemma ksum_pairs r : forall L c, (1 <= L)%nat -> Forall (fun n => 0 <= n) r ->
  fold_right Z.add 0 (map (fun p => 2 ^ (16 - Z.of_nat (fst p))) (pairs L c r)) = PLimit.ksum L r.
Proof.
  induction r as [|n r IH]; intros L c HL Hn; [reflexivity|]. inversion Hn as [|? ? Hn0 Hn']; subst.
  cbn [pairs PLimit.ksum]. rewrite map_app, map_map. cbn [fst].
  rewrite <- (IH (S L) (2 * (c + n)) ltac:(lia) Hn'). generalize (pairs (S L) (2 * (c + n)) r). intros ps.
  replace n with (Z.of_nat (length (seq 0 (Z.to_nat n)))) at 2 by (rewrite seq_length; lia).
  generalize (seq 0 (Z.to_nat n)). intros l. induction l as [|x l IHl]; [cbn [map app length]; lia|].
  cbn [map app fold_right length]. rewrite IHl. lia.
Qed.
Lemma valid_nonneg r : forall L c, valid L c r -> Forall (fun n => 0 <= n) r.
Proof. induction r as [|n r IH]; intros L c H; inversion H; subst; constructor; eauto. Qed.

Lemma combine_snd_all {A B} (l : list A) : forall (l' : list B), length l = length l' -> map snd (combine l l') = l'.
Proof. induction l as [|x l IH]; intros [|y l'] H; try discriminate H; [reflexivity|]. cbn [combine map snd]. f_equal. apply IH. cbn in H. lia. Qed.

Lemma table_kraft counts vals tb : build_table counts vals = Some tb ->
  PGreedy.ksum 16 (map (fun e => (0, Z.of_nat (length (fst e)))) tb) <= 2 ^ 16 - 1 /\
  (forall e, In e tb -> (1 <= length (fst e) <= 16)%nat) /\ map snd tb = vals.
Proof.
  intros H. apply build_table_inv in H as (L16 & Hnd & Hv & Hpl & ->).
  pose proof (valid_kraft counts 1 0 Hv ltac:(lia) (le_n _) ltac:(change (2 ^ Z.of_nat 1) with 2; lia)
    ltac:(intros ->; discriminate L16)) as K.
  rewrite Z.mul_0_l, Z.add_0_l in K. rewrite <- (ksum_pairs counts 1 0 (le_n _) (valid_nonneg _ _ _ Hv)) in K.
  pose proof (pairs_ok counts L16 Hv) as Hok.
  split; [|split].
  - eapply Z.le_trans; [|exact K]. clear - Hpl. revert Hpl. generalize (pairs 1 0 counts). intros ps. revert vals.
    induction ps as [|p ps IH]; intros vals Hl; [cbn; lia|]. destruct vals as [|v vals]; [discriminate Hl|].
    cbn [map combine fold_right fst snd]. rewrite PGreedy.ksum_cons. cbn [snd]. rewrite bits_of_length.
    specialize (IH vals ltac:(cbn [length] in Hl; lia)). lia.
  - intros [w v] He. apply in_combine_l, in_map_iff in He as (p & <- & Hp). cbn [fst]. rewrite bits_of_length.
    rewrite Forall_forall in Hok. apply (Hok p Hp).
  - apply combine_snd_all. now rewrite map_length.
Qed.

Lemma filter_map_snd {A} (f : Z -> bool) (l : list (A * Z)) : filter f (map snd l) = map snd (filter (fun e => f (snd e)) l).
Proof. induction l as [|x l IH]; [reflexivity|]. cbn [map filter]. destruct (f (snd x)); cbn [map]; now rewrite IH. Qed.

Lemma any_table_pays freq counts vals tb c : length freq = 257%nat -> (forall s, 0 <= nth s freq 0) -> 0 < nth 256 freq 0 ->
  alternative freq counts vals tb -> greedy (map (w0 freq) (live0 freq)) c -> c <= code_bits freq tb + nth 256 freq 0 * longest tb.
Proof.
  intros Hlen Hnn Hres [Hb Hby Hcov] Hg.
  pose proof (build_table_inv _ _ _ Hb) as (_ & Hnd & _).
  apply table_kraft in Hb as (K & Hl & Hs).
  set (m := longest tb).
  assert (Hm : 0 <= m <= 16 /\ forall e, In e tb -> Z.of_nat (length (fst e)) <= m).
  { unfold m, longest. clear - Hl. induction tb as [|e tb IH]; cbn [map fold_right]; [split; [lia|intros e []]|].
    destruct IH as [A B]; [intros x Hx; apply Hl; now right|]. specialize (Hl e (or_introl eq_refl)).
    split; [lia|]. intros x [<-|Hx]; [lia|]. specialize (B x Hx). lia. }
  clearbody m. destruct Hm as [Hm0 Hm].
  assert (K' : PGreedy.ksum m (map (fun e => (0, Z.of_nat (length (fst e)))) tb) + 1 <= 2 ^ m).
  { assert (E : PGreedy.ksum 16 (map (fun e => (0, Z.of_nat (length (fst e)))) tb) =
       2 ^ (16 - m) * PGreedy.ksum m (map (fun e => (0, Z.of_nat (length (fst e)))) tb)).
    { clear - Hm Hm0. induction tb as [|e tb IH]; [cbn [map PGreedy.ksum fold_right]; lia|]. cbn [map]. rewrite !PGreedy.ksum_cons. cbn [snd].
      rewrite IH by (intros x Hx; apply Hm; now right). specialize (Hm e (or_introl eq_refl)).
      rewrite Z.mul_add_distr_l, <- Z.pow_add_r by lia. do 2 f_equal. lia. }
    rewrite E in K. assert (E2 : 2 ^ 16 = 2 ^ (16 - m) * 2 ^ m) by (rewrite <- Z.pow_add_r by lia; f_equal; lia).
    rewrite E2 in K. assert (0 < 2 ^ (16 - m)) by (apply Z.pow_pos_nonneg; lia). nia. }
  set (p := fun e : list bool * Z => 0 <? zn freq (snd e)).
  set (items := map (fun e => (zn freq (snd e), Z.of_nat (length (fst e)))) (filter p tb) ++ [(nth 256 freq 0, m)]).
  assert (Hc : cost items = code_bits freq tb + nth 256 freq 0 * m).
  { unfold items, code_bits. clear - Hnn. induction tb as [|e tb IH].
    - cbn [filter map app fold_right cost fst snd]. lia.
    - cbn [filter map fold_right]. unfold p at 1. unfold zn in *. specialize (Hnn (Z.to_nat (snd e))).
      destruct (0 <? nth (Z.to_nat (snd e)) freq 0) eqn:E; cbn [map app]; rewrite ?cost_cons, IH; cbn [fst snd]; nia. }
  rewrite <- Hc. refine (greedy_optimal _ _ Hg m items _ _ _ _).
  - unfold items. rewrite map_app, map_map. cbn [map fst]. rewrite (live_used freq Hlen Hres), map_app, map_map. cbn [map].
    apply Permutation_app; [|reflexivity].
    rewrite <- (map_map snd (fun v => zn freq v)). unfold w0. fold (zn freq). change (fun x => nth (Z.to_nat x) freq 0) with (zn freq).
    change (fun v => zn freq v) with (zn freq). apply Permutation_map.
    unfold p. rewrite <- (filter_map_snd (fun v => 0 <? zn freq v)), Hs. unfold used.
    apply NoDup_Permutation; [apply NoDup_filter, Hnd|apply NoDup_filter, zrange_NoDup|].
    intros v. rewrite !filter_In, in_zrange. rewrite Forall_forall in Hby. split.
    + intros [A B]. split; [apply Hby, A|exact B].
    + intros [A B]. split; [|exact B]. apply Hcov. split; [exact A|]. unfold zn in B. lia.
  - intros q Hq. unfold items in Hq. apply in_app_or in Hq as [Hq|[<-|[]]]; [|cbn [fst]; lia].
    apply in_map_iff in Hq as (e & <- & _). cbn [fst]. apply Hnn.
  - intros q Hq. unfold items in Hq. apply in_app_or in Hq as [Hq|[<-|[]]]; [|cbn [snd]; lia].
    apply in_map_iff in Hq as (e & <- & He). cbn [snd]. apply filter_In in He as [He _]. specialize (Hm e He). lia.
  - enough (PGreedy.ksum m items <= PGreedy.ksum m (map (fun e => (0, Z.of_nat (length (fst e)))) tb) + 1) by lia.
    unfold items. clear. induction tb as [|e tb IH].
    + cbn [filter map app]. rewrite PGreedy.ksum_cons. cbn [snd PGreedy.ksum fold_right]. rewrite Z.sub_diag. change (2 ^ 0) with 1. lia.
    + cbn [filter map]. rewrite PGreedy.ksum_cons. cbn [snd]. pose proof (Z.pow_nonneg 2 (m - Z.of_nat (length (fst e))) ltac:(lia)).
      destruct (p e); cbn [map app]; rewrite ?PGreedy.ksum_cons; cbn [snd]; lia.
Qed.

Theorem optimal P freq t tb : length freq = 257%nat -> (forall s, 0 <= nth s freq 0) -> fold_right Z.add 0 freq < 4294967296 ->
  nth 256 freq 0 = 1 -> (1 <= length (used freq) <= 254)%nat ->
  emits (new_optimized P freq) [] t -> build_table (h_length t) (h_values t) = Some tb ->
  fold_right Z.add 0 freq < 4181 \/ nth 15 (h_length t) 0 = 0 ->
  forall counts vals tb', alternative freq counts vals tb' -> code_bits freq tb + longest tb <= code_bits freq tb' + longest tb'.
Proof.
  intros Hlen Hnn Htot Hres Hu Em Hb Hs counts vals tb' Ha.
  destruct (made_cost freq Hlen Hnn Htot ltac:(lia) Hu P t tb Em Hb Hs Hres) as (c & Hg & Hc).
  pose proof (any_table_pays freq counts vals tb' c Hlen Hnn ltac:(lia) Ha Hg) as Hp. rewrite Hres in Hp. lia.
Qed.
