(** Figures K.2 - K.4: from code sizes to a table the decoder accepts. *)
From Verif Require Export PTree PHuff PSegments.
From Verif Require Import T81.
From Coq Require Import ZifyBool ZifyNat Permutation.

(** ** Weighted sums over the 33 entries of [bits] *)
Definition wsum (w : nat -> Z) (b : list Z) : Z := lsum (fun k => w k * nth k b 0) (seq 0 33).
Definition addat (b : list Z) (k : nat) (d : Z) : list Z := upd b k (nth k b 0 + d).

Lemma nth_addat b k d m : (k < length b)%nat -> nth m (addat b k d) 0 = nth m b 0 + (if Nat.eq_dec m k then d else 0).
Proof.
  intros Hk. unfold addat. rewrite nth_upd. replace (k <? length b)%nat with true by lia.
  destruct (Nat.eq_dec m k) as [->|N]; [rewrite Nat.eqb_refl; reflexivity|].
  replace (k =? m)%nat with false by lia. cbn [andb]. lia.
Qed.
Lemma addat_length b k d : length (addat b k d) = length b.
Proof. apply upd_length. Qed.

Lemma lsum_add f g l : lsum (fun k => f k + g k) l = lsum f l + lsum g l.
Proof.
  induction l as [|x l IH]; cbn [lsum fold_right]; [lia|].
  fold (lsum f l) (lsum g l) (lsum (fun k => f k + g k) l). lia.
Qed.
Lemma lsum_single f k l : NoDup l -> In k l -> lsum (fun m => if Nat.eq_dec m k then f m else 0) l = f k.
Proof.
  induction l as [|x l IH]; intros Hn Hi; [destruct Hi|]. inversion Hn as [|? ? Hx Hn']; subst.
  cbn [lsum fold_right]. fold (lsum (fun m => if Nat.eq_dec m k then f m else 0) l).
  destruct Hi as [->|Hi].
  - destruct (Nat.eq_dec k k); [|congruence].
    rewrite (lsum_ext _ (fun _ => 0)).
    + clear. induction l as [|y l IH]; cbn [lsum fold_right]; [lia|]. fold (lsum (fun _ => 0) l). lia.
    + intros s Hs. destruct (Nat.eq_dec s k); [subst; contradiction|reflexivity].
  - rewrite (IH Hn' Hi). destruct (Nat.eq_dec x k); [subst; contradiction|lia].
Qed.
Lemma wsum_addat w b k d : length b = 33%nat -> (k < 33)%nat -> wsum w (addat b k d) = wsum w b + w k * d.
Proof.
  intros Hl Hk. unfold wsum.
  rewrite (lsum_ext _ (fun m => w m * nth m b 0 + (if Nat.eq_dec m k then w m * d else 0))).
  - rewrite lsum_add, (lsum_single (fun m => w m * d)); [reflexivity|apply seq_NoDup|apply in_seq; lia].
  - intros s _. rewrite nth_addat by lia. destruct (Nat.eq_dec s k); lia.
Qed.

Definition kw (k : nat) : Z := 2 ^ (32 - Z.of_nat k).
Definition kraft (b : list Z) : Z := wsum kw b.
Definition total (b : list Z) : Z := wsum (fun _ => 1) b.

Record good (N : Z) (b : list Z) (i : nat) : Prop := {
  g_len : length b = 33%nat;
  g_nonneg : forall k, 0 <= nth k b 0;
  g_zero : nth 0 b 0 = 0;
  g_total : total b = N;
  g_kraft : kraft b = 2 ^ 32;
  g_above : forall k, (i < k)%nat -> nth k b 0 = 0
}.

Lemma entries_le N b l : length b = 33%nat -> (forall k, 0 <= nth k b 0) -> total b = N -> NoDup l -> Forall (fun k => k < 33)%nat l ->
  lsum (fun k => nth k b 0) l <= N.
Proof.
  intros Hl Hn Ht Hd Hb. rewrite <- Ht. unfold total, wsum.
  rewrite (lsum_ext (fun k => 1 * nth k b 0) (fun k => nth k b 0)) by (intros; lia).
  apply lsum_incl; [exact Hd| |intros; apply Hn].
  intros s Hs. rewrite Forall_forall in Hb. specialize (Hb s Hs). apply in_seq. lia.
Qed.

Lemma entry_le N b x : length b = 33%nat -> (forall k, 0 <= nth k b 0) -> total b = N -> (x < 33)%nat -> nth x b 0 <= N.
Proof.
  intros Hl Hn Ht Hx. pose proof (entries_le N b [x] Hl Hn Ht) as E. cbn [lsum fold_right] in E.
  assert (nth x b 0 + 0 <= N); [|lia]. apply E.
  - constructor; [intros H; destruct H|constructor].
  - constructor; [exact Hx|constructor].
Qed.
Lemma entries3_le N b x y z : length b = 33%nat -> (forall k, 0 <= nth k b 0) -> total b = N ->
  (x < 33)%nat -> (y < 33)%nat -> (z < 33)%nat -> x <> y -> x <> z -> y <> z ->
  nth x b 0 + nth y b 0 + nth z b 0 <= N.
Proof.
  intros Hl Hn Ht Hx Hy Hz Hxy Hxz Hyz. pose proof (entries_le N b [x; y; z] Hl Hn Ht) as E. cbn [lsum fold_right] in E.
  assert (nth x b 0 + (nth y b 0 + (nth z b 0 + 0)) <= N); [|lia]. apply E.
  - constructor; [cbn [In]; lia|]. constructor; [cbn [In]; lia|]. constructor; [intros H; destruct H|constructor].
  - constructor; [exact Hx|]. constructor; [exact Hy|]. constructor; [exact Hz|constructor].
Qed.

(** ** count_sizes *)
Definition psum (w : nat -> Z) (cs : list Z) : Z :=
  fold_right (fun s a => (if 0 <? s then w (Z.to_nat s) else 0) + a) 0 cs.

Lemma count_fold P : forall cs bits, Forall (fun s => 0 <= s <= 32) cs -> length bits = 33%nat ->
  (forall k, 0 <= nth k bits 0) -> total bits + psum (fun _ => 1) cs <= 255 ->
  exists bits', foldM (fun bits size =>
           if 0 <? size then
             let* b := index bits size in
             let* b' := ck_u P 8 (b + 1) in
             Ret (upd bits (Z.to_nat size) b')
           else Ret bits) cs bits = Ret bits' /\ length bits' = 33%nat /\ (forall k, 0 <= nth k bits' 0) /\
    nth 0 bits' 0 = nth 0 bits 0 /\ forall w, wsum w bits' = wsum w bits + psum w cs.
Proof.
  induction cs as [|s cs IH]; intros bits Hc Hl Hn Ht.
  - exists bits. cbn [foldM psum fold_right]. repeat split; auto. intros w. lia.
  - inversion Hc as [|? ? Hs Hc']; subst. cbn [foldM]. cbn [psum fold_right] in *.
    fold (psum (fun _ => 1) cs) in Ht.
    assert (Hp : 0 <= psum (fun _ => 1) cs).
    { clear. induction cs as [|s cs IH]; cbn [psum fold_right]; [lia|]. fold (psum (fun _ => 1) cs). destruct (0 <? s); lia. }
    destruct (0 <? s) eqn:Es.
    + rewrite (index_nth _ _ (nth (Z.to_nat s) bits 0)).
      2:{ lia. } 2:{ apply nth_error_nth'. lia. }
      cbn [bind].
      assert (Hle : nth (Z.to_nat s) bits 0 <= total bits).
      { apply entry_le; [exact Hl|exact Hn|reflexivity|lia]. }
      specialize (Hn (Z.to_nat s)) as Hns.
      rewrite ck_u_ret by (change (2 ^ 8) with 256; lia). cbn [bind].
      change (upd bits (Z.to_nat s) (nth (Z.to_nat s) bits 0 + 1)) with (addat bits (Z.to_nat s) 1).
      destruct (IH (addat bits (Z.to_nat s) 1) Hc') as (bits' & E & E1 & E2 & E3 & E4).
      * now rewrite addat_length.
      * intros k. rewrite nth_addat by lia. specialize (Hn k). destruct (Nat.eq_dec k (Z.to_nat s)); lia.
      * unfold total in *. rewrite wsum_addat by lia. lia.
      * exists bits'. split; [exact E|]. split; [exact E1|]. split; [exact E2|]. split.
        -- rewrite E3, nth_addat by lia. destruct (Nat.eq_dec 0 (Z.to_nat s)); lia.
        -- intros w. rewrite E4, wsum_addat by lia. fold (psum w cs). lia.
    + cbn [bind]. destruct (IH bits Hc' Hl Hn ltac:(lia)) as (bits' & E & E1 & E2 & E3 & E4).
      exists bits'. repeat (split; [assumption|]). intros w. rewrite E4. fold (psum w cs). lia.
Qed.

Lemma count_fold_deep P : forall cs bits, Forall (fun s => 0 <= s) cs -> length bits = 33%nat -> Exists (fun s => ~ s <= 32) cs ->
  (forall k, 0 <= nth k bits 0) -> total bits + psum (fun _ => 1) cs <= 255 ->
  foldM (fun bits size =>
           if 0 <? size then
             let* b := index bits size in
             let* b' := ck_u P 8 (b + 1) in
             Ret (upd bits (Z.to_nat size) b')
           else Ret bits) cs bits = Panic PIndex.
Proof.
  induction cs as [|s cs IH]; intros bits Hc Hl Hx Hn Ht; [inversion Hx|].
  inversion Hc as [|? ? Hs Hc']; subst. cbn [foldM]. cbn [psum fold_right] in Ht. fold (psum (fun _ => 1) cs) in Ht.
  assert (Hp : 0 <= psum (fun _ => 1) cs).
  { clear. induction cs as [|s cs IH]; cbn [psum fold_right]; [lia|]. fold (psum (fun _ => 1) cs). destruct (0 <? s); lia. }
  destruct (Z_le_gt_dec s 32) as [Hle|Hgt].
  - assert (Hx' : Exists (fun s => ~ s <= 32) cs) by (inversion Hx; subst; [lia|assumption]).
    destruct (0 <? s) eqn:Es; [|cbn [bind]; apply IH; (assumption || lia)].
    rewrite (index_nth _ _ (nth (Z.to_nat s) bits 0)).
    2:{ lia. } 2:{ apply nth_error_nth'. lia. }
    cbn [bind].
    assert (Hle' : nth (Z.to_nat s) bits 0 <= total bits) by (apply entry_le; [exact Hl|exact Hn|reflexivity|lia]).
    specialize (Hn (Z.to_nat s)) as Hns.
    rewrite ck_u_ret by (change (2 ^ 8) with 256; lia). cbn [bind].
    change (upd bits (Z.to_nat s) (nth (Z.to_nat s) bits 0 + 1)) with (addat bits (Z.to_nat s) 1).
    apply IH; [exact Hc'|now rewrite addat_length|exact Hx'| |].
    + intros k. rewrite nth_addat by lia. specialize (Hn k). destruct (Nat.eq_dec k (Z.to_nat s)); lia.
    + unfold total in *. rewrite wsum_addat by lia. lia.
  - replace (0 <? s) with true by lia. unfold index.
    replace (nth_error bits (Z.to_nat s)) with (@None Z) by (symmetry; apply nth_error_None; lia).
    replace (0 <=? s) with true by lia. reflexivity.
Qed.

(** ** Figure K.3 *)
Lemma find_shorter_spec P b : forall j, (exists k, (k <= j)%nat /\ nth k b 0 <> 0) ->
  exists k, find_shorter P b j = Ret k /\ (k <= j)%nat /\ nth k b 0 <> 0.
Proof.
  induction j as [|j IH]; intros (k & Hk & Hz); cbn [find_shorter].
  - assert (k = 0%nat) as -> by lia. replace (nth 0 b 0 =? 0) with false by lia. exists 0%nat. auto.
  - destruct (nth (S j) b 0 =? 0) eqn:E.
    + destruct IH as (k' & E' & H1 & H2). { exists k. split; [|exact Hz]. assert (k <> S j) by (intros ->; lia). lia. }
      exists k'. split; [exact E'|]. split; [lia|exact H2].
    + exists (S j). split; [reflexivity|]. split; [lia|lia].
Qed.

Lemma lsum_even g i l : NoDup l -> In i l -> (forall k, In k l -> k <> i -> (2 | g k)) -> (2 | lsum g l - g i).
Proof.
  intros Hn Hi He. rewrite (lsum_ext g (fun k => (if Nat.eq_dec k i then g k else 0) + (if Nat.eq_dec k i then 0 else g k))).
  2:{ intros s _. destruct (Nat.eq_dec s i); lia. }
  rewrite lsum_add, (lsum_single g) by assumption.
  replace (g i + lsum (fun k => if Nat.eq_dec k i then 0 else g k) l - g i) with (lsum (fun k => if Nat.eq_dec k i then 0 else g k) l) by lia.
  clear Hn Hi. induction l as [|x l IH]; cbn [lsum fold_right]; [exists 0; reflexivity|].
  apply Z.divide_add_r; [destruct (Nat.eq_dec x i); [exists 0; reflexivity|apply He; [now left|assumption]]|].
  apply IH. intros k Hk. apply He. now right.
Qed.

Lemma kw_pos k : (k <= 32)%nat -> 0 < kw k.
Proof. intros H. unfold kw. apply Z.pow_pos_nonneg; lia. Qed.
Lemma kw_succ k : (k < 32)%nat -> kw k = 2 * kw (S k).
Proof. intros H. unfold kw. rewrite <- Z.pow_succ_r by lia. f_equal. lia. Qed.

Section Level.
  Variable N : Z.
  Variable HN : N <= 255.

  Lemma deepest_even b i : good N b i -> (1 <= i <= 32)%nat -> (2 | nth i b 0).
  Proof.
    intros G Hi.
    set (g := fun k => if (k <=? i)%nat then 2 ^ Z.of_nat (i - k) * nth k b 0 else 0).
    assert (E : kraft b = kw i * lsum g (seq 0 33)).
    { unfold kraft, wsum. rewrite <- lsum_scale. apply lsum_ext. intros k Hk. unfold g.
      destruct (k <=? i)%nat eqn:Ek.
      - unfold kw. rewrite Z.mul_assoc, <- Z.pow_add_r by lia. do 2 f_equal. lia.
      - rewrite (g_above _ _ _ G k) by lia. lia. }
    rewrite (g_kraft _ _ _ G) in E.
    assert (E2 : 2 ^ 32 = kw i * 2 ^ Z.of_nat i).
    { unfold kw. rewrite <- Z.pow_add_r by lia. f_equal. lia. }
    rewrite E2 in E. apply Z.mul_reg_l in E; [|pose proof (kw_pos i ltac:(lia)); lia].
    assert (Hd : (2 | lsum g (seq 0 33) - g i)).
    { apply lsum_even; [apply seq_NoDup|apply in_seq; lia|]. intros k _ Hk. unfold g.
      destruct (k <=? i)%nat eqn:Ek; [|exists 0; reflexivity].
      apply Z.divide_mul_l. replace (Z.of_nat (i - k)) with (Z.succ (Z.of_nat (i - k) - 1)) by lia.
      rewrite Z.pow_succ_r by lia. exists (2 ^ (Z.of_nat (i - k) - 1)). lia. }
    rewrite <- E in Hd.
    assert (Hg : g i = nth i b 0). { unfold g. rewrite Nat.leb_refl, Nat.sub_diag. change (2 ^ Z.of_nat 0) with 1. lia. }
    rewrite Hg in Hd.
    replace (nth i b 0) with (2 ^ Z.of_nat i - (2 ^ Z.of_nat i - nth i b 0)) by lia.
    apply Z.divide_sub_r; [|exact Hd].
    replace (Z.of_nat i) with (Z.succ (Z.of_nat i - 1)) by lia. rewrite Z.pow_succ_r by lia. exists (2 ^ (Z.of_nat i - 1)). lia.
  Qed.

  Lemma shorter_exists b i : good N b i -> (17 <= i <= 32)%nat -> exists k, (k <= i - 2)%nat /\ nth k b 0 <> 0.
  Proof.
    intros G Hi.
    assert (D : (exists k, (k <= i - 2)%nat /\ nth k b 0 <> 0) \/ forall k, (k <= i - 2)%nat -> nth k b 0 = 0).
    { generalize (i - 2)%nat. intros j. induction j as [|j [(k & A & B)|H]].
      - destruct (Z.eq_dec (nth 0 b 0) 0) as [E|E]; [right|left; exists 0%nat; auto].
        intros k Hk. now replace k with 0%nat by lia.
      - left. exists k. split; [lia|exact B].
      - destruct (Z.eq_dec (nth (S j) b 0) 0) as [E|E]; [right|left; exists (S j); auto].
        intros k Hk. destruct (Nat.eq_dec k (S j)) as [->|]; [exact E|]. apply H. lia. }
    destruct D as [D|D]; [exact D|exfalso].
    assert (Hle : kraft b <= kw (i - 1) * N).
    { rewrite <- (g_total _ _ _ G). unfold kraft, total, wsum. rewrite <- lsum_scale.
      assert (M : forall f g l, (forall s, In s l -> f s <= g s) -> lsum f l <= lsum g l).
      { intros f g l. induction l as [|x l IH]; intros H; cbn [lsum fold_right]; [lia|]. fold (lsum f l) (lsum g l).
        pose proof (H x (or_introl eq_refl)). assert (lsum f l <= lsum g l) by (apply IH; intros s Hs; apply H; now right). lia. }
      apply M. intros k Hk. apply in_seq in Hk. pose proof (g_nonneg _ _ _ G k) as Hp.
      destruct (Nat.le_gt_cases k (i - 2)) as [H|H]; [rewrite (D k H); lia|].
      assert (kw k <= kw (i - 1)); [|nia]. unfold kw. apply Z.pow_le_mono_r; lia. }
    rewrite (g_kraft _ _ _ G) in Hle.
    assert (kw (i - 1) <= 2 ^ 16). { unfold kw. apply Z.pow_le_mono_r; lia. }
    pose proof (kw_pos (i - 1) ltac:(lia)). change (2 ^ 32) with (2 ^ 16 * 2 ^ 16) in Hle.
    assert (kw (i - 1) * N <= 2 ^ 16 * 255) by nia. change (2 ^ 16) with 65536 in *. lia.
  Qed.

  Lemma shorten_step P b i : good N b i -> (17 <= i <= 32)%nat -> 0 < nth i b 0 ->
    exists j b', find_shorter P b (i - 2) = Ret j /\
      (let* a := ck_u P 8 (nth i b 0 - 2) in
       let bits := upd b i a in
       let* a := ck_u P 8 (nth (i - 1) bits 0 + 1) in
       let bits := upd bits (i - 1) a in
       let* a := ck_u P 8 (nth (j + 1) bits 0 + 2) in
       let bits := upd bits (j + 1) a in
       let* a := ck_u P 8 (nth j bits 0 - 1) in
       Ret (upd bits j a)) = Ret b' /\ good N b' i /\ nth i b' 0 = nth i b 0 - 2.
  Proof.
    intros G Hi Hp. assert (G' := G). destruct G' as [Gl Gn Gz Gt Gk Ga].
    destruct (find_shorter_spec P b (i - 2) (shorter_exists b i G Hi)) as (j & Ej & Hj & Hjz).
    assert (Hj1 : (1 <= j)%nat) by (destruct j; [lia|lia]).
    assert (Hji : 1 <= nth j b 0) by (specialize (Gn j); lia).
    assert (He : 2 <= nth i b 0). { destruct (deepest_even b i G ltac:(lia)) as [q Eq]. lia. }
    assert (S3 : forall x, (x < 33)%nat -> x <> i -> x <> j -> nth x b 0 + nth i b 0 + nth j b 0 <= 255).
    { intros x Hx Hxi Hxj. pose proof (entries3_le N b x i j Gl Gn Gt Hx ltac:(lia) ltac:(lia) Hxi Hxj ltac:(lia)). lia. }
    assert (Si := S3 (i - 1)%nat ltac:(lia) ltac:(lia) ltac:(lia)).
    assert (Sj := S3 (j + 1)%nat ltac:(lia) ltac:(lia) ltac:(lia)).
    pose proof (Gn i) as Pi. pose proof (Gn (i - 1)%nat) as Pi1. pose proof (Gn (j + 1)%nat) as Pj1.
    assert (Hi255 : nth i b 0 <= 255) by lia. assert (Hj255 : nth j b 0 <= 255) by lia.
    set (b1 := addat b i (-2)). set (b2 := addat b1 (i - 1) 1). set (b3 := addat b2 (j + 1) 2). set (b4 := addat b3 j (-1)).
    assert (L1 : length b1 = 33%nat) by (unfold b1; now rewrite addat_length).
    assert (L2 : length b2 = 33%nat) by (unfold b2; now rewrite addat_length).
    assert (L3 : length b3 = 33%nat) by (unfold b3; now rewrite addat_length).
    assert (L4 : length b4 = 33%nat) by (unfold b4; now rewrite addat_length).
    assert (N1 : forall m, nth m b1 0 = nth m b 0 + (if Nat.eq_dec m i then -2 else 0)) by (intros; unfold b1; apply nth_addat; lia).
    assert (N2 : forall m, nth m b2 0 = nth m b1 0 + (if Nat.eq_dec m (i - 1) then 1 else 0)) by (intros; unfold b2; apply nth_addat; lia).
    assert (N3 : forall m, nth m b3 0 = nth m b2 0 + (if Nat.eq_dec m (j + 1) then 2 else 0)) by (intros; unfold b3; apply nth_addat; lia).
    assert (N4 : forall m, nth m b4 0 = nth m b3 0 + (if Nat.eq_dec m j then -1 else 0)) by (intros; unfold b4; apply nth_addat; lia).
    assert (NN : forall m, nth m b4 0 = nth m b 0 + (if Nat.eq_dec m i then -2 else 0) + (if Nat.eq_dec m (i - 1) then 1 else 0)
                            + (if Nat.eq_dec m (j + 1) then 2 else 0) + (if Nat.eq_dec m j then -1 else 0)).
    { intros m. rewrite N4, N3, N2, N1. lia. }
    exists j, b4. split; [exact Ej|].
    change (2 ^ 8) with 256 in *.
    rewrite ck_u_ret by (change (2 ^ 8) with 256; lia). cbn [bind].
    replace (upd b i (nth i b 0 - 2)) with b1 by (unfold b1, addat; f_equal; lia). cbv zeta.
    rewrite ck_u_ret.
    2:{ change (2 ^ 8) with 256. rewrite N1. destruct (Nat.eq_dec (i - 1) i); lia. }
    cbn [bind]. change (upd b1 (i - 1) (nth (i - 1) b1 0 + 1)) with b2.
    rewrite ck_u_ret.
    2:{ change (2 ^ 8) with 256. rewrite N2, N1. destruct (Nat.eq_dec (j + 1) i), (Nat.eq_dec (j + 1) (i - 1)); lia. }
    cbn [bind]. change (upd b2 (j + 1) (nth (j + 1) b2 0 + 2)) with b3.
    rewrite ck_u_ret.
    2:{ change (2 ^ 8) with 256. rewrite N3, N2, N1. destruct (Nat.eq_dec j i), (Nat.eq_dec j (i - 1)), (Nat.eq_dec j (j + 1)); lia. }
    cbn [bind]. replace (upd b3 j (nth j b3 0 - 1)) with b4 by (unfold b4, addat; f_equal; lia).
    split; [reflexivity|].
    assert (W : forall w, wsum w b4 = wsum w b - 2 * w i + w (i - 1)%nat + 2 * w (j + 1)%nat - w j).
    { intros w. unfold b4. rewrite wsum_addat by lia. unfold b3. rewrite wsum_addat by lia. unfold b2. rewrite wsum_addat by lia.
      unfold b1. rewrite wsum_addat by lia. lia. }
    split.
    - constructor.
      + exact L4.
      + intros k. rewrite NN. specialize (Gn k).
        destruct (Nat.eq_dec k i) as [->|]; destruct (Nat.eq_dec k j) as [->|] || idtac;
          repeat match goal with |- context [Nat.eq_dec ?a ?b] => destruct (Nat.eq_dec a b); subst end; try lia.
      + rewrite NN, Gz. repeat match goal with |- context [Nat.eq_dec ?a ?b] => destruct (Nat.eq_dec a b); try lia end.
      + unfold total in *. rewrite W. lia.
      + unfold kraft in *. rewrite W, Gk.
        pose proof (kw_succ (i - 1) ltac:(lia)) as K1. replace (S (i - 1)) with i in K1 by lia.
        pose proof (kw_succ j ltac:(lia)) as K2. replace (S j) with (j + 1)%nat in K2 by lia. lia.
      + intros k Hk. rewrite NN, (Ga k Hk).
        repeat match goal with |- context [Nat.eq_dec ?a ?b] => destruct (Nat.eq_dec a b); try lia end.
    - rewrite NN. repeat match goal with |- context [Nat.eq_dec ?a ?b] => destruct (Nat.eq_dec a b); try lia end.
  Qed.

  Lemma shorten_level_ok P i : (17 <= i <= 32)%nat -> forall fuel b, good N b i -> nth i b 0 < Z.of_nat fuel ->
    exists b', shorten_level P fuel i b = Ret b' /\ good N b' (i - 1).
  Proof.
    intros Hi. induction fuel as [|fuel IH]; intros b G Hf; [pose proof (g_nonneg _ _ _ G i); lia|].
    cbn [shorten_level]. destruct (0 <? nth i b 0) eqn:E.
    - destruct (shorten_step P b i G Hi ltac:(lia)) as (j & b' & Ej & Eb & G' & Hd).
      rewrite Ej. cbn [bind]. destruct (IH b' G' ltac:(lia)) as (b'' & E'' & G'').
      exists b''. split; [|exact G''].
      (* the four updates *)
      revert Eb. cbv zeta.
      destruct (ck_u P 8 (nth i b 0 - 2)) as [a1| | |]; cbn [bind]; try discriminate.
      destruct (ck_u P 8 (nth (i - 1) (upd b i a1) 0 + 1)) as [a2| | |]; cbn [bind]; try discriminate.
      destruct (ck_u P 8 (nth (j + 1) (upd (upd b i a1) (i - 1) a2) 0 + 2)) as [a3| | |]; cbn [bind]; try discriminate.
      destruct (ck_u P 8 (nth j (upd (upd (upd b i a1) (i - 1) a2) (j + 1) a3) 0 - 1)) as [a4| | |]; cbn [bind]; try discriminate.
      intros [= ->]. exact E''.
    - exists b. split; [reflexivity|]. destruct G as [A B C D F Ga]. constructor; auto.
      intros k Hk. destruct (Nat.eq_dec k i) as [->|]; [specialize (B i); lia|]. apply Ga. lia.
  Qed.

  Lemma limit_ok P : forall n b, (n <= 16)%nat -> good N b (16 + n) ->
    exists b', foldM (fun bits i => shorten_level P 257 i bits) (rev (seq 17 n)) b = Ret b' /\ good N b' 16.
  Proof.
    induction n as [|n IH]; intros b Hn G.
    - exists b. split; [reflexivity|]. exact G.
    - rewrite seq_S, rev_app_distr. cbn [rev app foldM].
      assert (Hb : nth (17 + n) b 0 < 257).
      { pose proof (entry_le N b (17 + n) (g_len _ _ _ G) (g_nonneg _ _ _ G) (g_total _ _ _ G) ltac:(lia)). lia. }
      destruct (shorten_level_ok P (17 + n) ltac:(lia) 257 b) as (b1 & E1 & G1).
      { replace (17 + n)%nat with (16 + S n)%nat by lia. exact G. } { lia. }
      rewrite E1. cbn [bind]. apply IH; [lia|]. replace (16 + n)%nat with (17 + n - 1)%nat by lia. exact G1.
  Qed.
End Level.

(** ** Dropping the reserved code, and validity *)
Fixpoint ksum (L : nat) (r : list Z) : Z :=
  match r with [] => 0 | n :: r' => n * 2 ^ (16 - Z.of_nat L) + ksum (S L) r' end.
Lemma ksum_nonneg r : forall L, Forall (fun n => 0 <= n) r -> (L + length r <= 17)%nat -> 0 <= ksum L r.
Proof.
  induction r as [|n r IH]; intros L Hn Hl; cbn [ksum]; [lia|]. inversion Hn; subst. cbn [length] in Hl.
  specialize (IH (S L) ltac:(assumption) ltac:(lia)).
  assert (0 < 2 ^ (16 - Z.of_nat L)) by (apply Z.pow_pos_nonneg; lia). nia.
Qed.

Lemma valid_intro r : forall L c, Forall (fun n => 0 <= n) r -> (L + length r = 17)%nat -> (1 <= L)%nat -> 0 <= c ->
  (r <> [] -> c * 2 ^ (16 - Z.of_nat L) + ksum L r < 2 ^ 16) -> valid L c r.
Proof.
  induction r as [|n r IH]; intros L c Hn Hl HL Hc Hk; [constructor|].
  inversion Hn as [|? ? Hn0 Hn']; subst. cbn [length ksum] in *. specialize (Hk ltac:(discriminate)).
  pose proof (ksum_nonneg r (S L) Hn' ltac:(lia)) as Hr.
  assert (Hp : 0 < 2 ^ (16 - Z.of_nat L)) by (apply Z.pow_pos_nonneg; lia).
  assert (E16 : 2 ^ 16 = 2 ^ Z.of_nat L * 2 ^ (16 - Z.of_nat L)) by (rewrite <- Z.pow_add_r by lia; f_equal; lia).
  constructor; [exact Hn0| |].
  - right. rewrite E16 in Hk. nia.
  - apply IH; [exact Hn'|lia|lia|nia|]. intros Hne. destruct r as [|m r]; [congruence|].
    assert (E : 2 ^ (16 - Z.of_nat L) = 2 * 2 ^ (16 - Z.of_nat (S L))).
    { rewrite <- Z.pow_succ_r by (cbn [length] in Hl; lia). f_equal. lia. }
    rewrite E in Hk. lia.
Qed.

Lemma firstn_skipn_nth b : forall n L, (L + n <= length b)%nat ->
  firstn n (skipn L b) = map (fun k => nth k b 0) (seq L n).
Proof.
  induction n as [|n IH]; intros L H; [reflexivity|]. cbn [seq map]. rewrite <- IH by lia.
  clear IH. revert L H. induction b as [|x b IHb]; intros L H; [cbn in H; lia|].
  destruct L as [|L]; [reflexivity|]. cbn [skipn nth]. cbn [length] in H. apply IHb. lia.
Qed.

Lemma ksum_lsum b : forall n L, (L + n <= 17)%nat ->
  ksum L (map (fun k => nth k b 0) (seq L n)) * 2 ^ 16 = lsum (fun k => kw k * nth k b 0) (seq L n).
Proof.
  induction n as [|n IH]; intros L H; [reflexivity|]. cbn [seq map ksum lsum fold_right].
  fold (lsum (fun k => kw k * nth k b 0) (seq (S L) n)). rewrite <- (IH (S L)) by lia.
  assert (E : kw L = 2 ^ (16 - Z.of_nat L) * 2 ^ 16). { unfold kw. rewrite <- Z.pow_add_r by lia. f_equal. lia. }
  rewrite E. lia.
Qed.
Lemma lsum_zero f l : (forall k, In k l -> f k = 0) -> lsum f l = 0.
Proof.
  intros H. induction l as [|x l IH]; [reflexivity|]. cbn [lsum fold_right]. fold (lsum f l).
  rewrite (H x) by now left. rewrite IH; [reflexivity|]. intros k Hk. apply H. now right.
Qed.

Lemma drop_spec P N b : good N b 16 -> N <= 255 ->
  exists i, (1 <= i <= 16)%nat /\ 1 <= nth i b 0 /\ drop_reserved P b 16 = Ret (addat b i (-1)).
Proof.
  intros G HN. destruct G as [Gl Gn Gz Gt Gk Ga].
  assert (Ex : exists k, (k <= 16)%nat /\ nth k b 0 <> 0).
  { assert (D : forall j, (exists k, (k <= j)%nat /\ nth k b 0 <> 0) \/ forall k, (k <= j)%nat -> nth k b 0 = 0).
    { intros j. induction j as [|j [(k & A & B)|H]].
      - destruct (Z.eq_dec (nth 0 b 0) 0) as [E|E]; [right|left; exists 0%nat; auto].
        intros k Hk. now replace k with 0%nat by lia.
      - left. exists k. split; [lia|exact B].
      - destruct (Z.eq_dec (nth (S j) b 0) 0) as [E|E]; [right|left; exists (S j); auto].
        intros k Hk. destruct (Nat.eq_dec k (S j)) as [->|]; [exact E|]. apply H. lia. }
    destruct (D 16%nat) as [D'|D']; [exact D'|exfalso].
    unfold kraft, wsum in Gk. rewrite lsum_zero in Gk; [discriminate Gk|].
    intros k _. destruct (Nat.le_gt_cases k 16) as [H|H]; [rewrite D'|rewrite Ga]; lia. }
  assert (Dr : forall j, (j <= 16)%nat -> (exists k, (k <= j)%nat /\ nth k b 0 <> 0) ->
    exists i, (i <= j)%nat /\ nth i b 0 <> 0 /\ drop_reserved P b j = let* a := ck_u P 8 (nth i b 0 - 1) in Ret (upd b i a)).
  { induction j as [|j IH]; intros Hj (k & Hk & Hz); cbn [drop_reserved].
    - assert (k = 0%nat) as -> by lia. contradiction.
    - destruct (nth (S j) b 0 =? 0) eqn:E.
      + destruct IH as (i & A & B & C); [lia| |exists i; split; [lia|split; assumption]].
        exists k. split; [|exact Hz]. assert (k <> S j) by (intros ->; lia). lia.
      + exists (S j). split; [lia|]. split; [lia|reflexivity]. }
  destruct (Dr 16%nat (le_n _) Ex) as (i & Hi & Hz & E). exists i.
  assert (1 <= nth i b 0) by (specialize (Gn i); lia).
  pose proof (entry_le N b i Gl Gn Gt ltac:(lia)).
  split; [split; [destruct i; lia|exact Hi]|]. split; [assumption|].
  rewrite E, ck_u_ret by (change (2 ^ 8) with 256; lia). reflexivity.
Qed.

Lemma fold_add_lsum b : forall n L, fold_right Z.add 0 (map (fun k => nth k b 0) (seq L n)) = lsum (fun k => nth k b 0) (seq L n).
Proof. intros n. induction n as [|n IH]; intros L; [reflexivity|]. cbn [seq map fold_right lsum]. rewrite IH. reflexivity. Qed.

Lemma dropped_ok N b i : good N b 16 -> (1 <= i <= 16)%nat -> 1 <= nth i b 0 ->
  let lens := firstn 16 (skipn 1 (addat b i (-1))) in
  length lens = 16%nat /\ Forall (fun n => 0 <= n <= N) lens /\ valid 1 0 lens /\ fold_right Z.add 0 lens = N - 1.
Proof.
  intros [Gl Gn Gz Gt Gk Ga] Hi Hp lens. set (d := addat b i (-1)) in *.
  assert (Ld : length d = 33%nat) by (unfold d; now rewrite addat_length).
  assert (Nd : forall m, nth m d 0 = nth m b 0 + (if Nat.eq_dec m i then -1 else 0)) by (intros; unfold d; apply nth_addat; lia).
  assert (Nn : forall m, 0 <= nth m d 0). { intros m. rewrite Nd. specialize (Gn m). destruct (Nat.eq_dec m i); [subst|]; lia. }
  assert (El : lens = map (fun k => nth k d 0) (seq 1 16)) by (apply firstn_skipn_nth; lia).
  assert (Split : forall w, wsum w d = w 0%nat * nth 0 d 0 + (lsum (fun k => w k * nth k d 0) (seq 1 16) + 0)).
  { intros w. unfold wsum. change (seq 0 33) with (0%nat :: seq 1 16 ++ seq 17 16). cbn [lsum fold_right].
    fold (lsum (fun k => w k * nth k d 0) (seq 1 16 ++ seq 17 16)). rewrite lsum_app.
    rewrite (lsum_zero _ (seq 17 16)); [lia|]. intros k Hk. apply in_seq in Hk. rewrite Nd, (Ga k) by lia.
    destruct (Nat.eq_dec k i); lia. }
  assert (Z0 : nth 0 d 0 = 0) by (rewrite Nd, Gz; destruct (Nat.eq_dec 0 i); lia).
  assert (Tot : total d = N - 1) by (unfold total, d in *; rewrite wsum_addat by lia; lia).
  assert (Kr : kraft d = 2 ^ 32 - kw i) by (unfold kraft, d in *; rewrite wsum_addat by lia; lia).
  rewrite El. split; [now rewrite map_length, seq_length|]. split; [|split].
  - apply Forall_forall. intros n Hin. apply in_map_iff in Hin as (k & <- & Hk). apply in_seq in Hk.
    pose proof (entry_le _ d k Ld Nn Tot ltac:(lia)). specialize (Nn k). lia.
  - apply valid_intro.
    + apply Forall_forall. intros n Hin. apply in_map_iff in Hin as (k & <- & _). apply Nn.
    + now rewrite map_length, seq_length.
    + lia.
    + lia.
    + intros _. rewrite Z.mul_0_l, Z.add_0_l.
      assert (E : ksum 1 (map (fun k => nth k d 0) (seq 1 16)) * 2 ^ 16 = kraft d).
      { rewrite ksum_lsum by lia. unfold kraft. rewrite Split, Z0. lia. }
      pose proof (kw_pos i ltac:(lia)). rewrite Kr in E. change (2 ^ 32) with (2 ^ 16 * 2 ^ 16) in E. nia.
  - rewrite fold_add_lsum. rewrite <- Tot. unfold total. rewrite Split, Z0.
    rewrite (lsum_ext (fun k => 1 * nth k d 0) (fun k => nth k d 0)) by (intros; lia). lia.
Qed.

(** ** Figure K.4 *)
Lemma concat_filter_in {A} (f : A -> Z) (keys : list Z) (l : list A) x :
  In x (concat (map (fun i => filter (fun j => f j =? i) l) keys)) <-> In x l /\ In (f x) keys.
Proof.
  rewrite in_concat. split.
  - intros (y & Hy & Hx). apply in_map_iff in Hy as (i & <- & Hi). apply filter_In in Hx as [Hx E].
    split; [exact Hx|]. now replace (f x) with i by lia.
  - intros [Hx Hk]. exists (filter (fun j => f j =? f x) l). split; [apply in_map_iff; now exists (f x)|].
    apply filter_In. split; [exact Hx|lia].
Qed.
Lemma concat_filter_nodup {A} (f : A -> Z) (keys : list Z) (l : list A) :
  NoDup keys -> NoDup l -> NoDup (concat (map (fun i => filter (fun j => f j =? i) l) keys)).
Proof.
  intros Hk Hl. induction Hk as [|i keys Hi Hk IH]; cbn [map concat]; [constructor|].
  assert (Hf : NoDup (filter (fun j => f j =? i) l)) by now apply NoDup_filter.
  assert (Hd : forall x, In x (filter (fun j => f j =? i) l) -> ~ In x (concat (map (fun i => filter (fun j => f j =? i) l) keys))).
  { intros x Hx H. apply concat_filter_in in H as [_ H]. apply filter_In in Hx as [_ E]. apply Hi. now replace i with (f x) by lia. }
  clear - Hf Hd IH. induction Hf as [|x r Hx Hr IHr]; [exact IH|]. cbn [app]. constructor.
  - intros H. apply in_app_or in H as [H|H]; [contradiction|]. apply (Hd x); [now left|exact H].
  - apply IHr. intros y Hy. apply Hd. now right.
Qed.

Lemma zrange_NoDup n : NoDup (zrange n).
Proof.
  unfold zrange. apply FinFun.Injective_map_NoDup; [|apply seq_NoDup]. intros a b H. lia.
Qed.
Lemma zseg_NoDup a b : NoDup (zseg a b).
Proof. unfold zseg. apply FinFun.Injective_map_NoDup; [|apply zrange_NoDup]. intros x y H. lia. Qed.
Lemma in_zseg a b k : In k (zseg a b) <-> a <= k < b.
Proof.
  unfold zseg. rewrite in_map_iff. split.
  - intros (x & <- & Hx). apply in_zrange in Hx. lia.
  - intros H. exists (k - a). split; [lia|]. apply in_zrange. lia.
Qed.

Lemma sort_values_in cs v : In v (sort_values cs) <-> 0 <= v < 256 /\ 1 <= zn cs v <= 32.
Proof. unfold sort_values. rewrite (concat_filter_in (fun j => zn cs j)), in_zrange, in_zseg. lia. Qed.
Lemma sort_values_nodup cs : NoDup (sort_values cs).
Proof. apply (concat_filter_nodup (fun j => zn cs j)); [apply zseg_NoDup|apply zrange_NoDup]. Qed.

(** ** new_optimized *)
Section Optimized.
  Variable freq : list Z.
  Variable Hlen : length freq = 257%nat.
  Variable Hnn : forall s, 0 <= nth s freq 0.
  Variable Htot : fold_right Z.add 0 freq < 4294967296.
  Variable Hres : 0 < nth 256 freq 0.
  (** the symbols that occur *)
  Definition used : list Z := filter (fun v => 0 <? zn freq v) (zrange 256).
  Variable Hused : (1 <= length used <= 254)%nat.

  Lemma fold_add_seq (l : list Z) : forall k, fold_right Z.add 0 l = lsum (fun s => nth (s - k) l 0) (seq k (length l)).
  Proof.
    induction l as [|x l IH]; intros k; [reflexivity|]. cbn [length seq fold_right lsum].
    fold (lsum (fun s => nth (s - k) (x :: l) 0) (seq (S k) (length l))). rewrite Nat.sub_diag. cbn [nth].
    rewrite (IH (S k)). f_equal. apply lsum_ext. intros s Hs. apply in_seq in Hs.
    replace (s - k)%nat with (S (s - S k))%nat by lia. reflexivity.
  Qed.
  Lemma total_weight_eq : weight freq (seq 0 257) = fold_right Z.add 0 freq.
  Proof.
    rewrite (fold_add_seq freq 0), Hlen. unfold weight, w0. apply lsum_ext.
    intros s _. now rewrite Nat.sub_0_r.
  Qed.
  Lemma total_weight : weight freq (seq 0 257) < 4294967296.
  Proof. rewrite total_weight_eq. exact Htot. Qed.

  Lemma filter_map_of_nat (f : Z -> bool) (l : list nat) : filter f (map Z.of_nat l) = map Z.of_nat (filter (fun i => f (Z.of_nat i)) l).
  Proof. induction l as [|x l IH]; [reflexivity|]. cbn [map filter]. destruct (f (Z.of_nat x)); cbn [map]; now rewrite IH. Qed.

  Lemma live_used : live0 freq = map Z.to_nat used ++ [256%nat].
  Proof.
    clear Hused. unfold live0, used, zrange. change (Z.to_nat 256) with 256%nat.
    replace (seq 0 257) with (seq 0 256 ++ [256%nat]) by reflexivity. rewrite filter_app.
    rewrite filter_map_of_nat, map_map. f_equal.
    - rewrite (map_ext _ (fun x => x)) by (intros; apply Nat2Z.id). rewrite map_id. apply filter_ext.
      intros i. unfold zn, w0. now rewrite Nat2Z.id.
    - cbn [filter]. unfold w0. replace (0 <? nth 256 freq 0) with true by lia. reflexivity.
  Qed.
  Lemma live_length : length (live0 freq) = S (length used).
  Proof. clear Hused. rewrite live_used, app_length, map_length. cbn [length]. apply Nat.add_1_r. Qed.

  Lemma psum_lsum w cs : psum w cs = lsum (fun s => if 0 <? nth s cs 0 then w (Z.to_nat (nth s cs 0)) else 0) (seq 0 (length cs)).
  Proof.
    enough (G : forall k, psum w cs = lsum (fun s => if 0 <? nth (s - k) cs 0 then w (Z.to_nat (nth (s - k) cs 0)) else 0) (seq k (length cs))).
    { rewrite (G 0%nat). apply lsum_ext. intros s _. now rewrite Nat.sub_0_r. }
    induction cs as [|x cs IH]; intros k; [reflexivity|]. cbn [length seq].
    assert (Lc : forall f y l, lsum f (y :: l) = f y + lsum f l) by reflexivity. rewrite Lc.
    assert (Pc : psum w (x :: cs) = (if 0 <? x then w (Z.to_nat x) else 0) + psum w cs) by reflexivity. rewrite Pc.
    rewrite Nat.sub_diag. cbn [nth]. f_equal. rewrite (IH (S k)).
    apply lsum_ext. intros s Hs. apply in_seq in Hs.
    replace (s - k)%nat with (S (s - S k))%nat by lia. reflexivity.
  Qed.

  Lemma lsum_filter f (p : nat -> bool) l : lsum (fun s => if p s then f s else 0) l = lsum f (filter p l).
  Proof.
    induction l as [|x l IH]; [reflexivity|]. cbn [lsum fold_right filter].
    fold (lsum (fun s => if p s then f s else 0) l). rewrite IH. destruct (p x); [reflexivity|apply Z.add_0_l].
  Qed.
  Lemma lsum_one l : lsum (fun _ => 1) l = Z.of_nat (length l).
  Proof. induction l as [|x l IH]; [reflexivity|]. cbn [lsum fold_right length]. fold (lsum (fun _ => 1) l). lia. Qed.

  Definition table_made (P : platform) : Prop :=
    exists t tb, emits (new_optimized P freq) [] t /\ valid_tab t tb /\ Permutation (h_values t) used /\
      length (h_lookup t) = 256%nat /\ (forall v, In v used -> codes t tb v) /\
      (forall v, 0 <= v < 256 -> ~ In v used -> nth_error (h_lookup t) (Z.to_nat v) = Some (0, 0)).

  Lemma table_from_sizes P cs : code_sizes_loop P 258 freq (repeat (-1) 257) (repeat 0 257) = Ret cs -> length cs = 257%nat ->
    (forall i, 0 < w0 freq i -> 1 <= nth i cs 0 <= 45) -> (forall i, nth i cs 0 <= 32) ->
    (forall i, w0 freq i = 0 -> nth i cs 0 = 0) ->
    lsum (fun s => 2 ^ (45 - nth s cs 0)) (live0 freq) = 2 ^ 45 -> table_made P.
  Proof.
    intros Ecs Lcs Hlive' H32 Hdead Hk'.
    assert (Hlive : forall i, 0 < w0 freq i -> 1 <= nth i cs 0 <= 32).
    { intros i Hi. specialize (Hlive' i Hi). specialize (H32 i). lia. }
    assert (Hk : lsum (fun s => 2 ^ (32 - nth s cs 0)) (live0 freq) = 2 ^ 32).
    { apply (Z.mul_reg_l _ _ (2 ^ 13)); [lia|]. rewrite <- lsum_scale. change (2 ^ 13 * 2 ^ 32) with (2 ^ 45).
      rewrite <- Hk'. apply lsum_ext. intros s Hs. specialize (H32 s). rewrite <- Z.pow_add_r by lia. f_equal. lia. }
    unfold table_made.
    set (N := Z.of_nat (S (length used))).
    assert (Hcs : Forall (fun s => 0 <= s <= 32) cs).
    { apply Forall_forall. intros x Hx. apply In_nth with (d := 0) in Hx as (i & _ & <-).
      destruct (Z.eq_dec (w0 freq i) 0) as [E|E]; [rewrite (Hdead i E); lia|].
      assert (0 < w0 freq i) as W by (specialize (Hnn i); unfold w0 in *; lia). specialize (Hlive i W). lia. }
    assert (Hps : forall w, psum w cs = lsum (fun s => w (Z.to_nat (nth s cs 0))) (live0 freq)).
    { intros w. rewrite psum_lsum, Lcs. unfold live0. rewrite <- lsum_filter. apply lsum_ext. intros s _.
      destruct (Z.eq_dec (w0 freq s) 0) as [E|E].
      - rewrite E, (Hdead s E). reflexivity.
      - assert (0 < w0 freq s) as W by (specialize (Hnn s); unfold w0 in *; lia). specialize (Hlive s W).
        replace (0 <? nth s cs 0) with true by lia. replace (0 <? w0 freq s) with true by lia. reflexivity. }
    assert (Hp1 : psum (fun _ => 1) cs = N) by (rewrite Hps, lsum_one, live_length; reflexivity).
    assert (Z33 : forall k, nth k (repeat 0 33) 0 = 0) by (intros; apply nth_repeat).
    assert (Wz : forall w, wsum w (repeat 0 33) = 0).
    { intros w. unfold wsum. apply lsum_zero. intros k _. rewrite Z33. lia. }
    destruct (count_fold P cs (repeat 0 33) Hcs (repeat_length _ _)) as (bits & Eb & Lb & Nb & B0 & Wb).
    { intros k. rewrite Z33. lia. } { unfold total. rewrite Wz, Hp1. unfold N. lia. }
    assert (G : good N bits 32).
    { constructor.
      - exact Lb.
      - exact Nb.
      - rewrite B0. apply Z33.
      - unfold total. now rewrite Wb, Wz, Hp1.
      - unfold kraft. rewrite Wb, Wz, Hps, Z.add_0_l. rewrite <- Hk. apply lsum_ext. intros s Hs.
        apply (live0_in freq Hlen) in Hs; [|exact Hnn]. specialize (Hlive s Hs). unfold kw. rewrite ?Z2Nat.id by lia. reflexivity.
      - intros k Hk1. apply nth_overflow. lia. }
    destruct (limit_ok N ltac:(unfold N; lia) P 16 bits (le_n _) G) as (bits1 & E1 & G1).
    destruct (drop_spec P N bits1 G1 ltac:(unfold N; lia)) as (i & Hi & Hp & E2).
    destruct (dropped_ok N bits1 i G1 Hi Hp) as (L16 & Lr & Hv & Hsum).
    set (lens := firstn 16 (skipn 1 (addat bits1 i (-1)))) in *.
    set (vals := sort_values cs).
    assert (Pv : Permutation vals used).
    { apply NoDup_Permutation; [apply sort_values_nodup|apply NoDup_filter, zrange_NoDup|].
      intros v. unfold vals. rewrite sort_values_in. unfold used. rewrite filter_In, in_zrange. unfold zn.
      destruct (Z.eq_dec (w0 freq (Z.to_nat v)) 0) as [E|E].
      - rewrite (Hdead _ E). unfold w0 in E. rewrite E. lia.
      - assert (0 < w0 freq (Z.to_nat v)) as W by (specialize (Hnn (Z.to_nat v)); unfold w0 in *; lia). specialize (Hlive _ W).
        unfold w0 in W. lia. }
    assert (Hvb : Forall (fun v => 0 <= v < 256) vals).
    { apply Forall_forall. intros v Hin. apply sort_values_in in Hin. lia. }
    assert (Hpl : length (pairs 1 0 lens) = length vals).
    { rewrite (Permutation_length Pv).
      assert (Gp : forall r L c, Forall (fun n => 0 <= n) r -> Z.of_nat (length (pairs L c r)) = fold_right Z.add 0 r).
      { induction r as [|n r IH]; intros L c Hr; [reflexivity|]. inversion Hr; subst. cbn [pairs fold_right].
        rewrite app_length, map_length, seq_length, Nat2Z.inj_add, IH by assumption. lia. }
      pose proof (Gp lens 1%nat 0) as Gp'. rewrite Hsum in Gp'.
      assert (Z.of_nat (length (pairs 1 0 lens)) = N - 1); [|unfold N in *; lia].
      apply Gp'. eapply Forall_impl; [|exact Lr]. cbv beta. intros; lia. }
    assert (Hbt : build_table lens vals = Some (combine (map (fun p => bits_of (fst p) (snd p)) (pairs 1 0 lens)) vals)).
    { unfold build_table. rewrite (NoDup_distinct vals (sort_values_nodup cs)), L16. cbn [Nat.eqb andb].
      rewrite (canonical_codes_valid lens 1 0 Hv). rewrite map_length, Hpl, Nat.eqb_refl. reflexivity. }
    destruct (huffman_new_codes P lens vals _ Hbt Hvb) as (t & Et & El & Ev & Lt & Hc & Ho).
    exists t, (combine (map (fun p => bits_of (fst p) (snd p)) (pairs 1 0 lens)) vals).
    assert (Ent : new_optimized P freq = huffman_new P lens vals).
    { unfold new_optimized. rewrite Ecs. cbn [bind]. unfold count_sizes. rewrite Eb. cbn [bind].
      unfold limit_lengths. rewrite E1. cbn [bind]. rewrite E2. cbn [bind]. reflexivity. }
    split; [|split; [|split; [|split; [exact Lt|split]]]].
    - rewrite Ent. exact Et.
    - constructor; rewrite ?El, ?Ev; [exact Hbt| |exact Hvb].
      eapply Forall_impl; [|exact Lr]. cbv beta. unfold N. intros; lia.
    - now rewrite Ev.
    - intros v Hin. apply Hc. eapply Permutation_in; [symmetry; exact Pv|exact Hin].
    - intros v Hv0 Hni. apply Ho; [exact Hv0|]. intros H. apply Hni. eapply Permutation_in; [exact Pv|exact H].
  Qed.

  Theorem new_optimized_ok P : fold_right Z.add 0 freq < 9227465 -> table_made P.
  Proof.
    intros Hsmall.
    destruct (code_sizes_ok freq Hlen Hnn total_weight P) as (cs & Ecs & Lcs & Hlive & H32 & Hdead & Hk).
    { rewrite live_length. lia. }
    apply (table_from_sizes P cs); try assumption. apply H32. rewrite total_weight_eq. exact Hsmall.
  Qed.

  (** With more occurrences a code size above 32 is possible, and then the count of the sizes panics. *)
  Theorem new_optimized_sizes P : exists cs, code_sizes_loop P 258 freq (repeat (-1) 257) (repeat 0 257) = Ret cs /\
    ((Forall (fun s => s <= 32) cs /\ table_made P) \/ (Exists (fun s => ~ s <= 32) cs /\ new_optimized P freq = Panic PIndex)).
  Proof.
    destruct (code_sizes_ok freq Hlen Hnn total_weight P) as (cs & Ecs & Lcs & Hlive & _ & Hdead & Hk).
    { rewrite live_length. lia. }
    assert (Nn : Forall (fun s => 0 <= s) cs).
    { apply Forall_forall. intros x Hx. apply In_nth with (d := 0) in Hx as (i & _ & <-).
      destruct (Z.eq_dec (w0 freq i) 0) as [E|E]; [rewrite (Hdead i E); lia|].
      assert (0 < w0 freq i) as W by (specialize (Hnn i); unfold w0 in *; lia). specialize (Hlive i W). lia. }
    exists cs. split; [exact Ecs|].
    destruct (Forall_Exists_dec (fun s => s <= 32) (fun s => Z_le_dec s 32) cs) as [A|A].
    - left. split; [exact A|]. apply (table_from_sizes P cs); try assumption. intros i.
      destruct (Nat.lt_ge_cases i (length cs)) as [H|H]; [|rewrite nth_overflow by exact H; lia].
      rewrite Forall_forall in A. apply A, nth_In, H.
    - right. split; [exact A|]. unfold new_optimized. rewrite Ecs. cbn [bind]. unfold count_sizes. rewrite count_fold_deep; [reflexivity|exact Nn| |exact A| |].
      + apply repeat_length.
      + intros k. rewrite nth_repeat. lia.
      + assert (Z33 : forall k, nth k (repeat 0 33) 0 = 0) by (intros; apply nth_repeat).
        assert (Wz : total (repeat 0 33) = 0).
        { unfold total, wsum. apply lsum_zero. intros k _. rewrite Z33. lia. }
        rewrite Wz. rewrite psum_lsum, Lcs.
        assert (El : lsum (fun s => if 0 <? w0 freq s then 1 else 0) (seq 0 257) = Z.of_nat (S (length used))).
        { rewrite <- live_length, <- lsum_one. unfold live0. apply (lsum_filter (fun _ => 1) (fun s => 0 <? w0 freq s)). }
        rewrite (lsum_ext _ (fun s => if 0 <? w0 freq s then 1 else 0)).
        * rewrite El. lia.
        * intros s _. destruct (Z.eq_dec (w0 freq s) 0) as [E|E]; [rewrite E, (Hdead s E); reflexivity|].
          assert (0 < w0 freq s) as W by (specialize (Hnn s); unfold w0 in *; lia). specialize (Hlive s W).
          replace (0 <? nth s cs 0) with true by lia. replace (0 <? w0 freq s) with true by lia. reflexivity.
  Qed.
  Theorem new_optimized_cases P : table_made P \/ new_optimized P freq = Panic PIndex.
  Proof. destruct (new_optimized_sizes P) as (cs & _ & [[_ H]|[_ H]]); [left; exact H|right; exact H]. Qed.
End Optimized.
