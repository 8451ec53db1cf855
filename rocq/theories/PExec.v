(** Lemmas about running programs against a never-failing sink. *)
From Verif Require Export Rust.

(** [m] succeeds on a never-failing sink, writing [bs] and returning [a]. *)
Definition emits {A} (m : prog A) (bs : list Z) (a : A) : Prop := exec m = (bs, Ok a).

Lemma exec_bind {A B} (m : prog A) (f : A -> prog B) :
  exec (bind m f) =
  match exec m with
  | (o, Ok a) => let '(o', r) := exec (f a) in (o ++ o', r)
  | (o, Err e) => (o, Err e)
  | (o, Panicked p) => (o, Panicked p)
  end.
Proof.
  induction m as [a|e|r|bs k IH]; cbn [bind exec]; try reflexivity.
  - now destruct (exec (f a)).
  - rewrite IH. destruct (exec (k None)) as [o [a|e|p]]; try reflexivity.
    destruct (exec (f a)) as [o' r]. now rewrite app_assoc.
Qed.

Lemma exec_bind_ext {A B} (m : prog A) (f g : A -> prog B) :
  (forall a, exec (f a) = exec (g a)) -> exec (bind m f) = exec (bind m g).
Proof. intros H. rewrite !exec_bind. destruct (exec m) as [o [a|e|p]]; auto. now rewrite H. Qed.

Lemma bind_assoc {A B C} (m : prog A) (f : A -> prog B) (g : B -> prog C) :
  exec (bind (bind m f) g) = exec (bind m (fun a => bind (f a) g)).
Proof.
  rewrite !exec_bind. destruct (exec m) as [o1 [a|e|p]]; try reflexivity.
  rewrite exec_bind. destruct (exec (f a)) as [o2 [b|e|p]]; try reflexivity.
  destruct (exec (g b)) as [o3 r3]. now rewrite app_assoc.
Qed.

Lemma emits_ret {A} (a : A) : emits (Ret a) [] a.
Proof. reflexivity. Qed.

Lemma emits_bind {A B} (m : prog A) (f : A -> prog B) o1 a o2 b :
  emits m o1 a -> emits (f a) o2 b -> emits (bind m f) (o1 ++ o2) b.
Proof. unfold emits; intros H1 H2. rewrite exec_bind, H1, H2. reflexivity. Qed.

Lemma emits_bind0 {A B} (m : prog A) (f : A -> prog B) a o b :
  emits m [] a -> emits (f a) o b -> emits (bind m f) o b.
Proof. intros H1 H2. exact (emits_bind _ _ _ _ _ _ H1 H2). Qed.

Lemma emits_write_all bs : emits (write_all bs) bs tt.
Proof. unfold emits; cbn. now rewrite app_nil_r. Qed.

Lemma emits_inj {A} (m : prog A) o1 a1 o2 a2 :
  emits m o1 a1 -> emits m o2 a2 -> o1 = o2 /\ a1 = a2.
Proof. unfold emits; intros H1 H2; rewrite H1 in H2; inversion H2; auto. Qed.

(** Inversion of a successful bind *)
Lemma emits_bind_inv {A B} (m : prog A) (f : A -> prog B) o b :
  emits (bind m f) o b -> exists o1 a o2, emits m o1 a /\ emits (f a) o2 b /\ o = o1 ++ o2.
Proof.
  unfold emits. rewrite exec_bind.
  destruct (exec m) as [o1 [a|e|p]]; try discriminate.
  destruct (exec (f a)) as [o2 r] eqn:E; intros [= <- ->]. eauto 10.
Qed.

(** Loops: [emits_foldM] follows a list of outputs and states. *)
Lemma emits_foldM {A X} (f : A -> X -> prog A) (I : list X -> list Z -> A -> Prop) l a :
  I [] [] a ->
  (forall pre x post o s, l = pre ++ x :: post -> I pre o s ->
     exists o' s', emits (f s x) o' s' /\ I (pre ++ [x]) (o ++ o') s') ->
  exists o s, emits (foldM f l a) o s /\ I l o s.
Proof.
  intros H0 Hs.
  enough (G : forall post pre o s, l = pre ++ post -> I pre o s ->
            exists o' s', emits (foldM f post s) o' s' /\ I l (o ++ o') s').
  { destruct (G l [] [] a eq_refl H0) as (o & s & He & Hi). exists o, s. auto. }
  induction post as [|x post IH]; intros pre o s Hl Hi.
  - exists [], s. split; [apply emits_ret|]. rewrite app_nil_r in *. now subst.
  - destruct (Hs pre x post o s Hl Hi) as (o1 & s1 & He & Hi1).
    destruct (IH (pre ++ [x]) (o ++ o1) s1) as (o2 & s2 & He2 & Hi2).
    { now rewrite <- app_assoc. }
    { exact Hi1. }
    exists (o1 ++ o2), s2. split; [|now rewrite app_assoc].
    cbn [foldM]. eapply emits_bind; eauto.
Qed.

Lemma emits_foldM_cons {A X} (f : A -> X -> prog A) x l a o1 a1 o2 a2 :
  emits (f a x) o1 a1 -> emits (foldM f l a1) o2 a2 -> emits (foldM f (x :: l) a) (o1 ++ o2) a2.
Proof. intros; cbn [foldM]. eapply emits_bind; eauto. Qed.

Lemma foldM_app {A X} (f : A -> X -> prog A) l1 l2 a o1 a1 o2 a2 :
  emits (foldM f l1 a) o1 a1 -> emits (foldM f l2 a1) o2 a2 ->
  emits (foldM f (l1 ++ l2) a) (o1 ++ o2) a2.
Proof.
  revert a o1. induction l1 as [|x l1 IH]; intros a o1 H1 H2.
  - inversion H1; subst. exact H2.
  - cbn [foldM app] in *.
    apply emits_bind_inv in H1 as (oa & b & ob & Ha & Hb & ->).
    rewrite <- app_assoc. eapply emits_bind; eauto.
Qed.

(** Pure map *)
Lemma emits_mapM {A X} (f : X -> prog A) (g : X -> A) l :
  (forall x, In x l -> emits (f x) [] (g x)) -> emits (mapM f l) [] (map g l).
Proof.
  induction l as [|x l IH]; intros H; cbn [mapM map].
  - apply emits_ret.
  - eapply emits_bind0; [apply H; now left|].
    eapply emits_bind0; [apply IH; intros; apply H; now right|]. apply emits_ret.
Qed.

Lemma emits_mapM_inv {A X} (f : X -> prog A) l o ys :
  (forall x o y, In x l -> emits (f x) o y -> o = []) ->
  emits (mapM f l) o ys -> o = [] /\ Forall2 (fun x y => emits (f x) [] y) l ys.
Proof.
  revert o ys. induction l as [|x l IH]; intros o ys Hn H; cbn [mapM] in H.
  - inversion H; subst. split; constructor.
  - apply emits_bind_inv in H as (o1 & y & o2 & H1 & H2 & ->).
    apply emits_bind_inv in H2 as (o3 & ys' & o4 & H3 & H4 & ->).
    inversion H4; subst.
    assert (o1 = []) by (eapply Hn; [now left|eassumption]). subst.
    destruct (IH o3 ys') as [-> HF]; [intros; eapply Hn; [right|]; eassumption | assumption |].
    split; [reflexivity|]. constructor; assumption.
Qed.

(** ** Checked arithmetic *)
Lemma emits_ck_u P n z : 0 <= z < 2 ^ n -> emits (ck_u P n z) [] z.
Proof.
  intros H. unfold ck_u. replace ((0 <=? z) && (z <? 2 ^ n)) with true; [apply emits_ret|].
  symmetry. apply andb_true_intro. split; [apply Z.leb_le|apply Z.ltb_lt]; lia.
Qed.
Lemma emits_ck_s P n z : - 2 ^ (n - 1) <= z < 2 ^ (n - 1) -> emits (ck_s P n z) [] z.
Proof.
  intros H. unfold ck_s.
  replace ((- 2 ^ (n - 1) <=? z) && (z <? 2 ^ (n - 1))) with true; [apply emits_ret|].
  symmetry. apply andb_true_intro. split; [apply Z.leb_le|apply Z.ltb_lt]; lia.
Qed.
Lemma ck_s_ret P n z : - 2 ^ (n - 1) <= z < 2 ^ (n - 1) -> ck_s P n z = Ret z.
Proof.
  intros H. unfold ck_s.
  replace ((- 2 ^ (n - 1) <=? z) && (z <? 2 ^ (n - 1))) with true; [reflexivity|].
  symmetry. apply andb_true_intro. split; [apply Z.leb_le|apply Z.ltb_lt]; lia.
Qed.
Lemma ck_u_ret P n z : 0 <= z < 2 ^ n -> ck_u P n z = Ret z.
Proof.
  intros H. unfold ck_u. replace ((0 <=? z) && (z <? 2 ^ n)) with true; [reflexivity|].
  symmetry. apply andb_true_intro. split; [apply Z.leb_le|apply Z.ltb_lt]; lia.
Qed.
Lemma emits_shl P n x s : 0 <= s < n -> emits (shl_u P n x s) [] (wrap_u n (x * 2 ^ s)).
Proof.
  intros H. unfold shl_u. replace ((0 <=? s) && (s <? n)) with true; [apply emits_ret|].
  symmetry. apply andb_true_intro. split; [apply Z.leb_le|apply Z.ltb_lt]; lia.
Qed.
Lemma emits_shr P n x s : 0 <= s < n -> emits (shr_u P n x s) [] (x / 2 ^ s).
Proof.
  intros H. unfold shr_u. replace ((0 <=? s) && (s <? n)) with true; [apply emits_ret|].
  symmetry. apply andb_true_intro. split; [apply Z.leb_le|apply Z.ltb_lt]; lia.
Qed.
Lemma emits_debug_assert P b : b = true -> emits (debug_assert P b) [] tt.
Proof. intros ->. reflexivity. Qed.
Lemma emits_assert b : b = true -> emits (assert_ b) [] tt.
Proof. intros ->. reflexivity. Qed.

Lemma wrap_u_id n z : 0 <= z < 2 ^ n -> wrap_u n z = z.
Proof. intros. unfold wrap_u. now apply Z.mod_small. Qed.
Lemma wrap_s_id n z : 0 < n -> - 2 ^ (n - 1) <= z < 2 ^ (n - 1) -> wrap_s n z = z.
Proof.
  intros Hn H. unfold wrap_s. rewrite Z.mod_small; [lia|].
  replace (2 ^ n) with (2 * 2 ^ (n - 1)).
  - lia.
  - rewrite <- (Z.pow_succ_r 2 (n - 1)) by lia. f_equal; lia.
Qed.

(** ** Lists *)
Lemma index_nth {A} (l : list A) i a :
  0 <= i -> nth_error l (Z.to_nat i) = Some a -> index l i = Ret a.
Proof.
  intros Hi H. unfold index. replace (0 <=? i) with true by (symmetry; apply Z.leb_le; lia).
  now rewrite H.
Qed.
Lemma emits_index {A} (l : list A) i a :
  0 <= i -> nth_error l (Z.to_nat i) = Some a -> emits (index l i) [] a.
Proof. intros. rewrite (index_nth l i a) by assumption. apply emits_ret. Qed.
Lemma emits_index_lt {A} (d : A) (l : list A) i :
  0 <= i < zlen l -> emits (index l i) [] (nth (Z.to_nat i) l d).
Proof.
  intros H. apply emits_index; [lia|]. apply nth_error_nth'. unfold zlen in H. lia.
Qed.

Lemma zlen_app {A} (l1 l2 : list A) : zlen (l1 ++ l2) = zlen l1 + zlen l2.
Proof. unfold zlen. rewrite app_length. lia. Qed.
Lemma zlen_nonneg {A} (l : list A) : 0 <= zlen l.
Proof. unfold zlen. lia. Qed.

Lemma in_zrange n i : In i (zrange n) <-> 0 <= i < n.
Proof.
  unfold zrange. rewrite in_map_iff. split.
  - intros (k & <- & H). apply in_seq in H. lia.
  - intros H. exists (Z.to_nat i). rewrite in_seq. lia.
Qed.
Lemma zrange_length n : length (zrange n) = Z.to_nat n.
Proof. unfold zrange. now rewrite map_length, seq_length. Qed.
Lemma zrange_nth n i : (i < Z.to_nat n)%nat -> nth_error (zrange n) i = Some (Z.of_nat i).
Proof.
  intros H. unfold zrange. rewrite (map_nth_error Z.of_nat i (seq 0 (Z.to_nat n)) (d:=i)); auto.
  rewrite (nth_error_nth' _ 0%nat) by now rewrite seq_length. now rewrite seq_nth.
Qed.
Lemma zrange_succ n : 0 <= n -> zrange (n + 1) = zrange n ++ [n].
Proof.
  intros. unfold zrange. replace (Z.to_nat (n + 1)) with (Z.to_nat n + 1)%nat by lia.
  rewrite seq_app, map_app. cbn. now rewrite Z2Nat.id.
Qed.

Lemma upd_length {A} (l : list A) i v : length (upd l i v) = length l.
Proof. revert i; induction l as [|x l IH]; intros [|i]; cbn; auto. Qed.
Lemma nth_upd {A} (l : list A) i j v d :
  nth j (upd l i v) d = if ((i =? j) && (i <? length l))%nat then v else nth j l d.
Proof.
  revert i j; induction l as [|x l IH]; intros [|i] [|j]; cbn; auto.
  - now rewrite andb_false_r.
  - rewrite IH. now destruct (i =? j)%nat.
Qed.
Lemma nth_error_upd {A} (l : list A) i j v :
  nth_error (upd l i v) j =
  if ((i =? j) && (i <? length l))%nat then Some v else nth_error l j.
Proof.
  revert i j; induction l as [|x l IH]; intros [|i] [|j]; cbn; auto.
  - now rewrite andb_false_r.
  - rewrite IH. now destruct (i =? j)%nat.
Qed.
