(** The exact DCT is orthogonal: inversion and Parseval's equation. *)
From Coq Require Import Reals ZArith List Lra Lia.
From Verif Require Import SDct SReal PReal.
Import ListNotations.
Open Scope R_scope.

Definition nb (u x : nat) : R := dct_c u * dct_cos x u / 2.
Definition delta (i j : nat) : R := if (i =? j)%nat then 1 else 0.

Lemma rsum8_delta f i : (i < 8)%nat -> rsum8 (fun j => delta i j * f j) = f i.
Proof. intros H. unfold rsum8, delta. do 8 (destruct i as [|i]; [cbn [Nat.eqb]; ring|]). lia. Qed.

(** Sums of cosines *)
Lemma sum_x k : (0 <= k <= 14)%Z ->
  rsum8 (fun x => ck ((2 * Z.of_nat x + 1) * k)) = if (k =? 0)%Z then 8 else 0.
Proof.
  intros H. unfold rsum8.
  assert (K : (k = 0 \/ k = 1 \/ k = 2 \/ k = 3 \/ k = 4 \/ k = 5 \/ k = 6 \/ k = 7 \/ k = 8 \/ k = 9 \/ k = 10 \/ k = 11 \/ k = 12 \/ k = 13 \/ k = 14)%Z) by lia.
  assert (F : forall i, (i < 8)%nat -> ck ((2 * Z.of_nat i + 1) * k) = IZR (fst (fold1 ((2 * Z.of_nat i + 1) * k))) * ck (snd (fold1 ((2 * Z.of_nat i + 1) * k))))
    by (intros i Hi; apply ck_fold; lia).
  rewrite (F 0%nat), (F 1%nat), (F 2%nat), (F 3%nat), (F 4%nat), (F 5%nat), (F 6%nat), (F 7%nat) by lia. clear F H.
  repeat (destruct K as [-> | K]; [
    repeat match goal with |- context [fold1 ?a] => let r := eval vm_compute in (fold1 a) in change (fold1 a) with r; cbn [fst snd] end;
    cbn [Z.eqb]; rewrite ?ck_0, ?ck_8; ring|]).
  subst k. repeat match goal with |- context [fold1 ?a] => let r := eval vm_compute in (fold1 a) in change (fold1 a) with r; cbn [fst snd] end;
    cbn [Z.eqb]; rewrite ?ck_0, ?ck_8; ring.
Qed.

Definition csq (u : nat) : R := match u with O => / 2 | _ => 1 end.
Lemma csq_eq u : dct_c u * dct_c u = csq u.
Proof.
  destruct u; cbn [dct_c csq]; [|ring]. pose proof sqrt2_sq as H. pose proof sqrt2_pos.
  rewrite <- Rinv_mult. rewrite H. reflexivity.
Qed.
Lemma sum_u k : (0 <= k <= 15)%Z ->
  rsum8 (fun u => csq u * ck (2 * Z.of_nat u * k)) = if (k =? 0)%Z then 15 / 2 else if Z.even k then - / 2 else / 2.
Proof.
  intros H. unfold rsum8. cbn [csq].
  assert (K : (k = 0 \/ k = 1 \/ k = 2 \/ k = 3 \/ k = 4 \/ k = 5 \/ k = 6 \/ k = 7 \/ k = 8 \/ k = 9 \/ k = 10 \/ k = 11 \/ k = 12 \/ k = 13 \/ k = 14 \/ k = 15)%Z) by lia.
  assert (F : forall i, (i < 8)%nat -> ck (2 * Z.of_nat i * k) = IZR (fst (fold1 (2 * Z.of_nat i * k))) * ck (snd (fold1 (2 * Z.of_nat i * k))))
    by (intros i Hi; apply ck_fold; lia).
  rewrite (F 0%nat), (F 1%nat), (F 2%nat), (F 3%nat), (F 4%nat), (F 5%nat), (F 6%nat), (F 7%nat) by lia. clear F H.
  repeat (destruct K as [-> | K]; [
    repeat match goal with |- context [fold1 ?a] => let r := eval vm_compute in (fold1 a) in change (fold1 a) with r; cbn [fst snd] end;
    cbn [Z.eqb Z.even]; rewrite ?ck_0, ?ck_8; field|]).
  subst k. repeat match goal with |- context [fold1 ?a] => let r := eval vm_compute in (fold1 a) in change (fold1 a) with r; cbn [fst snd] end;
    cbn [Z.eqb Z.even]; rewrite ?ck_0, ?ck_8; field.
Qed.

Lemma nb_orth u u' : (u < 8)%nat -> (u' < 8)%nat -> rsum8 (fun x => nb u x * nb u' x) = delta u u'.
Proof.
  intros Hu Hu'. set (p := (Z.of_nat u + Z.of_nat u')%Z). set (m := Z.abs (Z.of_nat u - Z.of_nat u')).
  assert (E : rsum8 (fun x => nb u x * nb u' x)
    = dct_c u * dct_c u' / 8 * (rsum8 (fun x => ck ((2 * Z.of_nat x + 1) * p)) + rsum8 (fun x => ck ((2 * Z.of_nat x + 1) * m)))).
  { rewrite <- rsum8_plus, <- rsum8_scal. apply rsum8_ext. intros x _. unfold nb. rewrite !dct_cos_ck.
    replace (dct_c u * ck (ang u x) / 2 * (dct_c u' * ck (ang u' x) / 2)) with (dct_c u * dct_c u' / 4 * (ck (ang u x) * ck (ang u' x))) by field.
    rewrite ck_prod. replace (ang u x + ang u' x)%Z with ((2 * Z.of_nat x + 1) * p)%Z by (unfold ang, p; ring).
    replace (ck (ang u x - ang u' x)) with (ck ((2 * Z.of_nat x + 1) * m)); [field|].
    unfold m, ang. destruct (Z.abs_spec (Z.of_nat u - Z.of_nat u')) as [[_ ->]|[_ ->]]; [|rewrite <- ck_opp]; f_equal; ring. }
  rewrite E, !sum_x by (unfold p, m; lia). unfold delta. destruct (Nat.eqb_spec u u') as [<- | Hne].
  - rewrite csq_eq. replace (m =? 0)%Z with true by (symmetry; apply Z.eqb_eq; unfold m; lia).
    destruct u as [|u]; [change (p =? 0)%Z with true; cbn [csq]; field|].
    replace (p =? 0)%Z with false by (symmetry; apply Z.eqb_neq; unfold p; lia). cbn [csq]. field.
  - replace (p =? 0)%Z with false by (symmetry; apply Z.eqb_neq; unfold p; lia).
    replace (m =? 0)%Z with false by (symmetry; apply Z.eqb_neq; unfold m; lia). ring.
Qed.

Lemma nb_orth' x x' : (x < 8)%nat -> (x' < 8)%nat -> rsum8 (fun u => nb u x * nb u x') = delta x x'.
Proof.
  intros Hx Hx'. set (p := (Z.of_nat x + Z.of_nat x' + 1)%Z). set (m := Z.abs (Z.of_nat x - Z.of_nat x')).
  assert (E : rsum8 (fun u => nb u x * nb u x')
    = / 8 * (rsum8 (fun u => csq u * ck (2 * Z.of_nat u * p)) + rsum8 (fun u => csq u * ck (2 * Z.of_nat u * m)))).
  { rewrite <- rsum8_plus, <- rsum8_scal. apply rsum8_ext. intros u _. unfold nb. rewrite !dct_cos_ck, <- csq_eq.
    replace (dct_c u * ck (ang u x) / 2 * (dct_c u * ck (ang u x') / 2)) with (dct_c u * dct_c u / 4 * (ck (ang u x) * ck (ang u x'))) by field.
    rewrite ck_prod. replace (ang u x + ang u x')%Z with (2 * Z.of_nat u * p)%Z by (unfold ang, p; ring).
    replace (ck (ang u x - ang u x')) with (ck (2 * Z.of_nat u * m)); [field|].
    unfold m, ang. destruct (Z.abs_spec (Z.of_nat x - Z.of_nat x')) as [[_ ->]|[_ ->]]; [|rewrite <- ck_opp]; f_equal; ring. }
  rewrite E, !sum_u by (unfold p, m; lia). unfold delta. 
  replace (p =? 0)%Z with false by (symmetry; apply Z.eqb_neq; unfold p; lia).
  destruct (Nat.eqb_spec x x') as [<- | Hne].
  - replace (m =? 0)%Z with true by (symmetry; apply Z.eqb_eq; unfold m; lia).
    replace (Z.even p) with false; [field|]. symmetry. unfold p. replace (Z.of_nat x + Z.of_nat x + 1)%Z with (1 + 2 * Z.of_nat x)%Z by ring.
    rewrite Z.even_add_mul_2. reflexivity.
  - replace (m =? 0)%Z with false by (symmetry; apply Z.eqb_neq; unfold m; lia).
    assert (P : Z.even p = negb (Z.even m)).
    { unfold p, m. rewrite <- (Z.even_add_mul_2 (Z.of_nat x + Z.of_nat x' + 1) (- Z.of_nat x')).
      replace (Z.of_nat x + Z.of_nat x' + 1 + 2 * - Z.of_nat x')%Z with (Z.succ (Z.of_nat x - Z.of_nat x')) by lia.
      rewrite Z.even_succ, <- Z.negb_even. f_equal.
      destruct (Z.abs_spec (Z.of_nat x - Z.of_nat x')) as [[_ ->]|[_ ->]]; [reflexivity|]. now rewrite Z.even_opp. }
    rewrite P. destruct (Z.even m); cbn [negb]; field.
Qed.

(** ** The transform pair in terms of the orthonormal basis *)
Lemma dct_nb s v u : exact_dct s v u = rsum8 (fun y => nb v y * rsum8 (fun x => nb u x * s y x)).
Proof.
  unfold exact_dct. rewrite rsum8_swap. rewrite <- rsum8_scal. apply rsum8_ext. intros y _. rewrite <- !rsum8_scal. apply rsum8_ext. intros x _.
  unfold nb. field.
Qed.
Lemma idct_nb S y x : exact_idct S y x = rsum8 (fun v => nb v y * rsum8 (fun u => nb u x * S v u)).
Proof.
  unfold exact_idct. rewrite rsum8_swap. rewrite <- rsum8_scal. apply rsum8_ext. intros v _. rewrite <- !rsum8_scal. apply rsum8_ext. intros u _.
  unfold nb. field.
Qed.

(** One dimension: applying the matrix and then its transpose *)
Lemma inverse1 (f : nat -> R) x : (x < 8)%nat -> rsum8 (fun u => nb u x * rsum8 (fun x' => nb u x' * f x')) = f x.
Proof.
  intros Hx. transitivity (rsum8 (fun x' => delta x x' * f x')); [|now apply rsum8_delta].
  transitivity (rsum8 (fun u => rsum8 (fun x' => nb u x * nb u x' * f x'))).
  { apply rsum8_ext. intros u _. rewrite <- rsum8_scal. apply rsum8_ext. intros. ring. }
  rewrite rsum8_swap. apply rsum8_ext. intros x' Hx'. rewrite <- nb_orth' by assumption.
  rewrite (Rmult_comm _ (f x')), <- rsum8_scal. apply rsum8_ext. intros. ring.
Qed.
Lemma parseval1 (f : nat -> R) :
  rsum8 (fun x => rsum8 (fun u => nb u x * f u) * rsum8 (fun u => nb u x * f u)) = rsum8 (fun u => f u * f u).
Proof.
  transitivity (rsum8 (fun x => rsum8 (fun u => rsum8 (fun u' => nb u x * nb u' x * (f u * f u'))))).
  { apply rsum8_ext. intros x _. unfold rsum8. ring. }
  rewrite rsum8_swap. apply rsum8_ext. intros u Hu. rewrite rsum8_swap.
  transitivity (rsum8 (fun u' => delta u u' * (f u * f u'))); [|apply (rsum8_delta (fun j => f u * f j)); assumption].
  apply rsum8_ext. intros u' Hu'. rewrite <- nb_orth by assumption.
  rewrite (Rmult_comm _ (f u * f u')), <- rsum8_scal. apply rsum8_ext. intros. ring.
Qed.

(** ** Two dimensions *)
Theorem idct_dct s y x : (y < 8)%nat -> (x < 8)%nat -> exact_idct (exact_dct s) y x = s y x.
Proof.
  intros Hy Hx. rewrite idct_nb.
  transitivity (rsum8 (fun v => nb v y * rsum8 (fun y' => nb v y' * s y' x))); [|now apply (inverse1 (fun y' => s y' x))].
  apply rsum8_ext. intros v _. f_equal.
  transitivity (rsum8 (fun u => nb u x * rsum8 (fun x' => nb u x' * rsum8 (fun y' => nb v y' * s y' x')))).
  2:{ now apply (inverse1 (fun x' => rsum8 (fun y' => nb v y' * s y' x'))). }
  apply rsum8_ext. intros u _. f_equal. rewrite dct_nb.
  transitivity (rsum8 (fun y' => rsum8 (fun x' => nb v y' * nb u x' * s y' x'))).
  { apply rsum8_ext. intros y' _. rewrite <- rsum8_scal. apply rsum8_ext. intros. ring. }
  rewrite rsum8_swap. apply rsum8_ext. intros x' _. rewrite <- rsum8_scal. apply rsum8_ext. intros. ring.
Qed.

Definition energy (e : nat -> nat -> R) : R := rsum8 (fun y => rsum8 (fun x => e y x * e y x)).
Theorem idct_energy S : energy (exact_idct S) = energy S.
Proof.
  unfold energy.
  transitivity (rsum8 (fun x => rsum8 (fun y =>
    rsum8 (fun v => nb v y * rsum8 (fun u => nb u x * S v u)) * rsum8 (fun v => nb v y * rsum8 (fun u => nb u x * S v u))))).
  { rewrite rsum8_swap. apply rsum8_ext. intros x _. apply rsum8_ext. intros y _. now rewrite idct_nb. }
  transitivity (rsum8 (fun x => rsum8 (fun v => rsum8 (fun u => nb u x * S v u) * rsum8 (fun u => nb u x * S v u)))).
  { apply rsum8_ext. intros x _. apply (parseval1 (fun v => rsum8 (fun u => nb u x * S v u))). }
  rewrite rsum8_swap. apply rsum8_ext. intros v _. apply (parseval1 (S v)).
Qed.
Lemma idct_minus S T y x : exact_idct S y x - exact_idct T y x = exact_idct (fun v u => S v u - T v u) y x.
Proof.
  rewrite !idct_nb, <- rsum8_minus. apply rsum8_ext. intros v _.
  rewrite <- Rmult_minus_distr_l, <- rsum8_minus. f_equal. apply rsum8_ext. intros. ring.
Qed.
Lemma idct_ext S T y x : (forall v u, (v < 8)%nat -> (u < 8)%nat -> S v u = T v u) -> exact_idct S y x = exact_idct T y x.
Proof. intros H. rewrite !idct_nb. apply rsum8_ext. intros v Hv. f_equal. apply rsum8_ext. intros u Hu. now rewrite H. Qed.
