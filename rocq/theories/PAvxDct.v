(** The SIMD transform against its specification and against the scalar one. *)
From Verif Require Export PAvx2 PRound SAvx2.
From Coq Require Import ZifyBool ZifyNat.
Local Ltac Zify.zify_post_hook ::= Z.div_mod_to_equations.

Lemma col_avx2_nth l v d0 d1 d2 d3 d4 d5 d6 d7 : (v < 8)%nat -> unrounded v l = false ->
  nth v (col_avx2 l d0 d1 d2 d3 d4 d5 d6 d7) 0 = nth v (col_pure d0 d1 d2 d3 d4 d5 d6 d7) 0.
Proof.
  intros Hv Hu. unfold unrounded in Hu. rewrite <- Nat.negb_even in Hu. unfold col_avx2, col_pure. cbv zeta.
  destruct (Nat.even l) eqn:E; [reflexivity|].
  do 8 (destruct v as [|v]; [try discriminate Hu; reflexivity|]). lia.
Qed.
Lemma col_avx2_unrounded l v d0 d1 d2 d3 d4 d5 d6 d7 : unrounded v l = true ->
  nth v (col_avx2 l d0 d1 d2 d3 d4 d5 d6 d7) 0
  = (if (v =? 0)%nat then d0 + d1 + d2 + d3 + d4 + d5 + d6 + d7 else d0 - d1 - d2 + d3 + d4 - d5 - d6 + d7) / 4.
Proof.
  intros Hu. unfold unrounded in Hu. rewrite <- Nat.negb_even in Hu. unfold col_avx2. cbv zeta.
  destruct (Nat.even l) eqn:E; [now rewrite andb_false_r in Hu|].
  do 5 (destruct v as [|v]; [try discriminate Hu; cbn [nth Nat.eqb dct1d u0 u4]; f_equal; lia|]). discriminate Hu.
Qed.

Lemma zn_avx2 b v u : (v < 8)%nat -> (u < 8)%nat -> zn (avx2_pure b) (Z.of_nat (8 * v + u)) = pass2 (pass1 b) v u.
Proof. intros Hv Hu. unfold zn. rewrite Nat2Z.id. now apply all_rows_at. Qed.

Lemma avx2_bound b i : samples_ok b -> 0 <= i < 64 ->
  if i =? 0 then -8192 <= zn (avx2_pure b) i <= 8128 else -8170 <= zn (avx2_pure b) i <= 8170.
Proof.
  intros Hs Hi. set (v := Z.to_nat (i / 8)). set (u := Z.to_nat (i mod 8)).
  assert (Hv : (v < 8)%nat) by (unfold v; lia). assert (Hu : (u < 8)%nat) by (unfold u; lia).
  assert (Ei : i = Z.of_nat (8 * v + u)) by (unfold v, u; lia).
  replace (zn (avx2_pure b) i) with (pass2 (pass1 b) v u) by (rewrite Ei; symmetry; now apply zn_avx2). unfold pass2.
  assert (B : forall y, (y < 8)%nat -> lo_of (Z.of_nat u) <= pass1 b y u <= hi_of (Z.of_nat u)) by (intros; now apply pass1_range).
  pose proof (B 0%nat ltac:(lia)) as B0. pose proof (B 1%nat ltac:(lia)) as B1. pose proof (B 2%nat ltac:(lia)) as B2.
  pose proof (B 3%nat ltac:(lia)) as B3. pose proof (B 4%nat ltac:(lia)) as B4. pose proof (B 5%nat ltac:(lia)) as B5.
  pose proof (B 6%nat ltac:(lia)) as B6. pose proof (B 7%nat ltac:(lia)) as B7. clear B.
  set (d0 := pass1 b 0%nat u) in *. set (d1 := pass1 b 1%nat u) in *. set (d2 := pass1 b 2%nat u) in *. set (d3 := pass1 b 3%nat u) in *.
  set (d4 := pass1 b 4%nat u) in *. set (d5 := pass1 b 5%nat u) in *. set (d6 := pass1 b 6%nat u) in *. set (d7 := pass1 b 7%nat u) in *.
  clearbody d0 d1 d2 d3 d4 d5 d6 d7. destruct (unrounded v u) eqn:E.
  - rewrite col_avx2_unrounded by assumption.
    assert (u <> 0%nat). { intros ->. unfold unrounded in E. cbn in E. now rewrite andb_false_r in E. }
    replace (i =? 0) with false by (unfold u in *; lia).
    assert (EL : lo_of (Z.of_nat u) = -4080 /\ hi_of (Z.of_nat u) = 4080).
    { unfold lo_of, hi_of. replace (Z.of_nat u =? 0) with false by lia. auto. }
    destruct EL as [EL1 EL2]. rewrite EL1, EL2 in *. destruct (v =? 0)%nat; lia.
  - rewrite col_avx2_nth by assumption.
    destruct (col_pure_bound (lo_of (Z.of_nat u)) (hi_of (Z.of_nat u)) d0 d1 d2 d3 d4 d5 d6 d7) as [Ht Hh]; try assumption; [apply lo_hi|].
    set (r := col_pure _ _ _ _ _ _ _ _) in *. assert (Hlen : length r = 8%nat) by reflexivity. clearbody r.
    destruct r as [|r0 r]; [discriminate|]. cbn [tl hd length] in *. destruct v as [|v'] eqn:Ev.
    + cbn [nth]. unfold lo_of, hi_of in Hh. destruct (i =? 0) eqn:E0.
      * replace (Z.of_nat u =? 0) with true in Hh by lia. lia.
      * replace (Z.of_nat u =? 0) with false in Hh by lia. lia.
    + replace (i =? 0) with false by lia. cbn [nth]. rewrite Forall_forall in Ht. pose proof (Ht (nth v' r 0) ltac:(apply nth_In; lia)). lia.
Qed.

Lemma avx2_op_ok : op_ok avx2_operations avx2_pure.
Proof.
  split; [|exact avx2_bound]. intros P b Hs. cbn [avx2_operations op_fdct]. now rewrite fdct_avx2_ok.
Qed.

Lemma pass1_dct s y u : (y < 8)%nat -> (u < 8)%nat -> pass1 (block_of s) y u = row_dct s y u.
Proof.
  intros Hy Hu. unfold pass1.
  assert (E : forall x, (x < 8)%nat -> block_matrix (block_of s) y x = s y x).
  { intros x Hx. unfold block_matrix. rewrite <- (zn_block_of s y x) by assumption. unfold zn. now rewrite Nat2Z.id. }
  rewrite !E by lia. pose proof (row_pure_dct (s y) u Hu) as R. unfold zn in R. rewrite Nat2Z.id in R. exact R.
Qed.

Lemma avx2_is_dct : transform_is avx2_pure avx2_dct.
Proof.
  intros s v u Hv Hu. rewrite zn_avx2 by assumption. unfold pass2, avx2_dct.
  rewrite !pass1_dct by lia. destruct (unrounded v u) eqn:E.
  - rewrite col_avx2_unrounded by assumption.
    assert (G : forall a b, 8192 * a = b -> a / 4 = b / 2 ^ 15).
    { intros a b <-. change (2 ^ 15) with (8192 * 4). now rewrite Z.div_mul_cancel_l by lia. }
    apply G. clear G. unfold unrounded in E. apply andb_true_iff in E as [E _]. apply orb_true_iff in E as [E|E]; apply Nat.eqb_eq in E; subst v;
      cbn [Nat.eqb]; unfold sum8; set (r := fun y => row_dct s y u);
      change (row_dct s 0 u) with (r 0%nat); change (row_dct s 1 u) with (r 1%nat); change (row_dct s 2 u) with (r 2%nat);
      change (row_dct s 3 u) with (r 3%nat); change (row_dct s 4 u) with (r 4%nat); change (row_dct s 5 u) with (r 5%nat);
      change (row_dct s 6 u) with (r 6%nat); change (row_dct s 7 u) with (r 7%nat); clearbody r;
      unfold dct_entry, dct_matrix; cbn [nth]; lia.
  - rewrite col_avx2_nth by assumption.
    pose proof (col_pure_dct (fun y => row_dct s y u) v Hv) as R. unfold zn in R. rewrite Nat2Z.id in R. exact R.
Qed.

(** Scalar minus SIMD *)
Lemma dct_difference s v u : (v < 8)%nat -> (u < 8)%nat ->
  0 <= int_dct s v u - avx2_dct s v u <= 1 /\ (unrounded v u = false -> avx2_dct s v u = int_dct s v u).
Proof.
  intros Hv Hu. unfold avx2_dct. destruct (unrounded v u) eqn:E; [|split; [lia|reflexivity]]. split; [|discriminate].
  unfold int_dct, round_shift. change (2 ^ (15 - 1)) with 16384. change (2 ^ 15) with 32768. lia.
Qed.
