(** Row buffers and blocks. *)
From Verif Require Export PExec PFdct PQuant PScans Spec MEncoder.
From Coq Require Import ZifyBool ZifyNat.
Local Ltac Zify.zify_post_hook ::= Z.div_mod_to_equations.

(** Padded row of one channel *)
Definition padded_row (pl : planes) (W : Z) (bw : Z) (i : nat) (y : Z) : list Z :=
  map (fun x => pl i y (Z.min (W - 1) x)) (zrange bw).
Definition buf_of (n : nat) (pl : planes) (W H bw : Z) (ys : list Z) : bufs :=
  map (fun i => if (i <? n)%nat then flat_map (fun y => padded_row pl W bw i (Z.min (H - 1) y)) ys else [])
      (seq 0 4).

Lemma seq_shift_by a n : seq a n = map (fun k => (a + k)%nat) (seq 0 n).
Proof.
  revert a. induction n as [|n IH]; intros a; cbn [seq map]; [reflexivity|].
  f_equal; [lia|]. rewrite IH. rewrite <- seq_shift, map_map. apply map_ext. intros; lia.
Qed.

Lemma zrange_app a b : 0 <= a -> 0 <= b -> zrange (a + b) = zrange a ++ map (fun k => a + k) (zrange b).
Proof.
  intros. unfold zrange. rewrite Z2Nat.inj_add, seq_app, map_app by lia. f_equal.
  rewrite map_map, Nat.add_0_l, (seq_shift_by (Z.to_nat a)), map_map. apply map_ext. intros; lia.
Qed.

Definition pad1 (k : nat) (b : list Z) : list Z :=
  match b with [] => [] | _ => b ++ repeat (last b 0) k end.

Lemma fold_push_last n l (x : Z) : fold_left (fun r _ => map push_last r) (repeat x n) l =
  map (pad1 n) l.
Proof.
  revert l. induction n as [|n IH]; intros l; cbn [repeat fold_left].
  - rewrite <- (map_id l) at 1. apply map_ext. intros [|v b]; [reflexivity|]. unfold pad1. cbn [repeat]. now rewrite app_nil_r.
  - rewrite IH, map_map. apply map_ext. intros [|v b]; [reflexivity|]. cbn [push_last].
    unfold pad1. destruct ((v :: b) ++ [last (v :: b) 0]) eqn:E; [discriminate|]. rewrite <- E.
    rewrite last_last. rewrite <- app_assoc. reflexivity.
Qed.

Lemma fold_left_const {A B} (f : A -> A) (l : list B) (x : B) a :
  fold_left (fun r _ => f r) l a = fold_left (fun r _ => f r) (repeat x (length l)) a.
Proof. revert a; induction l as [|b l IH]; intros a; cbn; auto. Qed.

Lemma pad_row_eq W bw row : W <= bw ->
  pad_row W bw row =
  map (pad1 (Z.to_nat (bw - W))) row.
Proof.
  intros H. unfold pad_row. rewrite (fold_left_const _ _ 0), fold_push_last.
  unfold zseg. now rewrite map_length, zrange_length.
Qed.

Lemma last_app_map {A} (l : list A) (f : Z -> A) W d : 1 <= W ->
  last (l ++ map f (zrange W)) d = f (W - 1).
Proof.
  intros H. replace W with ((W - 1) + 1) at 1 by lia. rewrite zrange_succ, map_app by lia.
  rewrite app_assoc. apply last_last.
Qed.

Lemma map_const_repeat {A B} (c : B) (l : list A) : map (fun _ => c) l = repeat c (length l).
Proof. induction l; cbn; congruence. Qed.

Lemma padded_row_eq pl W bw i y : 1 <= W <= bw ->
  padded_row pl W bw i y =
  map (fun x => pl i y x) (zrange W) ++ repeat (pl i y (W - 1)) (Z.to_nat (bw - W)).
Proof.
  intros H. unfold padded_row. replace bw with (W + (bw - W)) at 1 by lia.
  rewrite zrange_app, map_app by lia. f_equal.
  - apply map_ext_in. intros x Hx. apply in_zrange in Hx. f_equal. lia.
  - rewrite map_map. rewrite <- (zrange_length (bw - W)), <- map_const_repeat.
    apply map_ext_in. intros x Hx. apply in_zrange in Hx. f_equal. lia.
Qed.

(** A forward transform that behaves like a function, with results in the codable range. *)
Record op_ok (op : operations) (F : list Z -> list Z) : Prop := {
  op_ret : forall P b, samples_ok b -> op_fdct op P b = Ret (F b);
  op_bound : forall b i, samples_ok b -> 0 <= i < 64 ->
    if i =? 0 then -8192 <= zn (F b) i <= 8128 else -8170 <= zn (F b) i <= 8170
}.

Lemma default_op_ok : op_ok default_operations fdct_pure.
Proof.
  split; [exact fdct_ret|]. intros b i Hs Hi. pose proof (fdct_bound b i Hs Hi). destruct (i =? 0); lia.
Qed.

Section Img.
  Variable im : image.
  Variable pl : planes.
  Variable Him : image_ok im pl.
  Let W := im_width im.
  Let H := im_height im.
  Let n := Z.to_nat (num_components (im_color im)).

  Lemma fill_rows_step bw ys y : W <= bw -> 0 <= y ->
    emits (let y := Z.min y (H - 1) in
           let* row := im_fill im y (buf_of n pl W H bw ys) in
           Ret (pad_row W bw row)) [] (buf_of n pl W H bw (ys ++ [y])).
  Proof.
    intros Hbw Hy. pose proof (io_width _ _ Him). pose proof (io_height _ _ Him).
    cbv zeta. eapply emits_bind0.
    - unfold emits. apply (io_fill _ _ Him); [subst H; lia|reflexivity].
    - replace (pad_row W bw _) with (buf_of n pl W H bw (ys ++ [y])); [apply emits_ret|].
      rewrite pad_row_eq by assumption. unfold append_row, buf_of. fold n W.
      rewrite map_length, seq_length.
      cbn [seq map combine].
      assert (G : forall i, (if (i <? n)%nat
          then flat_map (fun y0 => padded_row pl W bw i (Z.min (H - 1) y0)) (ys ++ [y]) else []) =
        pad1 (Z.to_nat (bw - W)) (if (i <? n)%nat then
           (if (i <? n)%nat then flat_map (fun y0 => padded_row pl W bw i (Z.min (H - 1) y0)) ys else [])
             ++ map (fun x => pl i (Z.min y (H - 1)) x) (zrange W) else
           (if (i <? n)%nat then flat_map (fun y0 => padded_row pl W bw i (Z.min (H - 1) y0)) ys else []))).
      { intros i. destruct (i <? n)%nat; [|reflexivity].
        rewrite flat_map_app. cbn [flat_map]. rewrite app_nil_r.
        set (pre := flat_map _ ys). unfold pad1.
        destruct (pre ++ map (fun x => pl i (Z.min y (H - 1)) x) (zrange W)) eqn:E.
        - exfalso. apply app_eq_nil in E as [_ E]. apply map_eq_nil in E.
          apply (f_equal (@length Z)) in E. rewrite zrange_length in E. cbn in E. subst W. lia.
        - rewrite <- E, last_app_map by (subst W; lia). rewrite <- app_assoc. f_equal.
          rewrite padded_row_eq by (subst W; lia). rewrite (Z.min_comm (H - 1) y). reflexivity. }
      rewrite !G. reflexivity.
  Qed.

  Lemma fill_rows_ok bw ys : W <= bw -> Forall (fun y => 0 <= y) ys ->
    emits (fill_rows im bw ys [[]; []; []; []]) [] (buf_of n pl W H bw ys).
  Proof.
    intros Hbw Hys. unfold fill_rows.
    assert (G : forall post pre, Forall (fun y => 0 <= y) post ->
      emits (foldM (fun row y =>
           let y := Z.min y (im_height im - 1) in
           let* row := im_fill im y row in
           Ret (pad_row (im_width im) bw row)) post (buf_of n pl W H bw pre)) []
        (buf_of n pl W H bw (pre ++ post))).
    { induction post as [|y post IH]; intros pre HF.
      - rewrite app_nil_r. apply emits_ret.
      - inversion HF; subst. cbn [foldM]. eapply emits_bind0; [now apply fill_rows_step|].
        replace (pre ++ y :: post) with ((pre ++ [y]) ++ post) by now rewrite <- app_assoc.
        now apply IH. }
    specialize (G ys [] Hys). replace (buf_of n pl W H bw []) with ([[]; []; []; []] : bufs) in G.
    - exact G.
    - unfold buf_of. cbn [seq map flat_map]. now repeat (destruct (_ <? n)%nat).
  Qed.

  Lemma buf_of_nth bw ys i : (i < n)%nat -> (n <= 4)%nat ->
    nth_error (buf_of n pl W H bw ys) i =
    Some (concat (map (fun y => padded_row pl W bw i (Z.min (H - 1) y)) ys)).
  Proof.
    intros Hi Hn. unfold buf_of. rewrite (map_nth_error _ i (seq 0 4) (d := i)).
    - replace (i <? n)%nat with true by lia. now rewrite flat_map_concat_map.
    - rewrite (nth_error_nth' _ 0%nat) by (rewrite seq_length; lia). now rewrite seq_nth by lia.
  Qed.

  Lemma n_le_4 : (n <= 4)%nat.
  Proof. subst n. destruct (im_color im); cbn; lia. Qed.

  (** A pixel of the buffer *)
  Lemma buf_index bw ys i iy ix y : (i < n)%nat -> 0 <= ix < bw -> 0 <= iy -> 
    nth_error ys (Z.to_nat iy) = Some y ->
    nth_error (concat (map (fun y => padded_row pl W bw i (Z.min (H - 1) y)) ys)) (Z.to_nat (iy * bw + ix))
    = Some (pl i (Z.min (H - 1) y) (Z.min (W - 1) ix)).
  Proof.
    intros Hi Hx Hiy Hys.
    replace (Z.to_nat (iy * bw + ix)) with (Z.to_nat iy * Z.to_nat bw + Z.to_nat ix)%nat by nia.
    set (ll := map _ ys).
    assert (Hll : nth_error ll (Z.to_nat iy) = Some (padded_row pl W bw i (Z.min (H - 1) y))).
    { unfold ll. now rewrite (map_nth_error _ _ _ Hys). }
    assert (HF : Forall (fun l => length l = Z.to_nat bw) ll).
    { apply Forall_forall. intros l Hl. apply in_map_iff in Hl as (y' & <- & _).
      unfold padded_row. now rewrite map_length, zrange_length. }
    assert (Hlen : (Z.to_nat iy < length ll)%nat) by (apply nth_error_Some; rewrite Hll; discriminate).
    rewrite (nth_error_nth' _ 0).
    - f_equal. rewrite nth_concat_const; [|assumption|lia|assumption].
      rewrite (nth_error_nth _ _ _ Hll). unfold padded_row.
      erewrite nth_error_nth; [reflexivity|].
      rewrite (map_nth_error _ _ _ (zrange_nth bw (Z.to_nat ix) ltac:(lia))).
      rewrite Z2Nat.id by lia. reflexivity.
    - assert (Hcl : forall l : list (list Z), Forall (fun l => length l = Z.to_nat bw) l ->
        length (concat l) = (length l * Z.to_nat bw)%nat).
      { induction l as [|a l IHl]; intros HFl; [reflexivity|]. inversion HFl; subst.
        cbn [concat length]. rewrite app_length, IHl by assumption. cbn [Nat.mul]. lia. }
      rewrite Hcl by assumption. nia.
  Qed.

  (** One block: the rows [ys] are in the buffer, block position in samples relative to the
      buffer. *)
  Lemma get_block_ok bw ys i hs vs sx sy bx by_ :
    (i < n)%nat -> 1 <= hs -> 1 <= vs -> 0 <= sx -> 0 <= sy -> sx + 8 * hs <= bw ->
    sx = 8 * bx * hs ->
    (forall k, 0 <= k < 8 -> nth_error ys (Z.to_nat (sy + k * vs)) = Some ((8 * by_ + k) * vs)) ->
    emits (get_block (concat (map (fun y => padded_row pl W bw i (Z.min (H - 1) y)) ys)) sx sy hs vs bw)
          [] (sample_block pl W H hs vs i by_ bx).
  Proof.
    intros Hi Hhs Hvs Hsx Hsy Hfit Hbx Hys. unfold get_block, sample_block.
    apply emits_mapM. intros k Hk. apply in_zrange in Hk. cbv zeta.
    assert (Hm : 0 <= k mod 8 < 8) by lia. assert (Hd : 0 <= k / 8 < 8) by lia.
    assert (Hx : 0 <= sx + k mod 8 * hs < bw) by nia.
    assert (Hy : 0 <= sy + k / 8 * vs) by nia.
    eapply emits_bind0.
    - apply emits_index; [apply Z.add_nonneg_nonneg; [apply Z.mul_nonneg_nonneg; lia|lia]|].
      apply buf_index with (y := (8 * by_ + k / 8) * vs); auto.
    - subst sx. replace (8 * bx * hs + k mod 8 * hs) with ((8 * bx + k mod 8) * hs) by lia. apply emits_ret.
  Qed.

  Lemma sample_block_ok hs vs i by_ bx :
    (i < n)%nat -> 1 <= hs -> 1 <= vs -> 0 <= bx -> 0 <= by_ ->
    samples_ok (sample_block pl W H hs vs i by_ bx).
  Proof.
    intros Hi Hhs Hvs Hbx Hby. split; [unfold sample_block; now rewrite map_length, zrange_length|].
    apply Forall_forall. intros v Hv. apply in_map_iff in Hv as (k & <- & Hk). apply in_zrange in Hk.
    pose proof (io_width _ _ Him) as HW. pose proof (io_height _ _ Him) as HH. fold W H in HW, HH.
    assert (0 <= k / 8 /\ 0 <= k mod 8) by lia.
    assert (0 <= (8 * by_ + k / 8) * vs) by nia. assert (0 <= (8 * bx + k mod 8) * hs) by nia.
    pose proof (io_range _ _ Him i (Z.min (H - 1) ((8 * by_ + k / 8) * vs)) (Z.min (W - 1) ((8 * bx + k mod 8) * hs))
       ltac:(subst n; lia) ltac:(subst W H; lia) ltac:(subst W H; lia)). lia.
  Qed.

  Variable op : operations.
  Variable F : list Z -> list Z.
  Variable Hop : op_ok op F.

  Lemma coef_block_ok hs vs q i by_ bx :
    (i < n)%nat -> 1 <= hs -> 1 <= vs -> 0 <= bx -> 0 <= by_ -> qtable_ok q ->
    block_ok (coef_block F pl W H hs vs q i by_ bx).
  Proof.
    intros Hi Hhs Hvs Hbx Hby Hq. unfold coef_block.
    pose proof (sample_block_ok hs vs i by_ bx Hi Hhs Hvs Hbx Hby) as Hs.
    set (b := sample_block _ _ _ _ _ _ _ _) in *.
    split; [apply qblock_pure_length|]. split.
    - rewrite qblock_pure_nth by lia. change (zn ZIGZAG 0) with 0.
      apply quant_pure_dc; [apply (qtable_entry q 0 Hq); lia|].
      exact (op_bound _ _ Hop b 0 Hs ltac:(lia)).
    - apply Forall_forall. intros v Hv.
      apply (In_nth _ _ 0) in Hv as (k & Hk & <-).
      assert (Hlen : length (slice (qblock_pure q (F b)) 1 64) = 63%nat).
      { unfold slice. rewrite firstn_length, skipn_length, qblock_pure_length. reflexivity. }
      assert (E : nth k (slice (qblock_pure q (F b)) 1 64) 0 =
                  zn (qblock_pure q (F b)) (Z.of_nat k + 1)).
      { pose proof (block_split (qblock_pure q (F b)) (qblock_pure_length _ _)) as E.
        unfold zn at 1. rewrite E at 2.
        replace (Z.to_nat (Z.of_nat k + 1)) with (S k) by lia. reflexivity. }
      rewrite E, qblock_pure_nth by lia.
      pose proof (zigzag_range (Z.of_nat k + 1) ltac:(lia)) as Hz.
      apply quant_pure_ac; [apply (qtable_entry q _ Hq); lia|].
      pose proof (op_bound _ _ Hop b _ Hs Hz) as Hb.
      replace (zn ZIGZAG (Z.of_nat k + 1) =? 0) with false in Hb; [exact Hb|].
      pose proof (zigzag_zero (Z.of_nat k + 1) ltac:(lia)). lia.
  Qed.

  Lemma make_block_ok P bw ys i hs vs sx sy bx by_ q :
    (i < n)%nat -> 1 <= hs -> 1 <= vs -> 0 <= sx -> 0 <= sy -> sx + 8 * hs <= bw ->
    sx = 8 * bx * hs -> 0 <= bx -> 0 <= by_ ->
    (forall k, 0 <= k < 8 -> nth_error ys (Z.to_nat (sy + k * vs)) = Some ((8 * by_ + k) * vs)) ->
    qtable_ok q ->
    emits (make_block P op
            (concat (map (fun y => padded_row pl W bw i (Z.min (H - 1) y)) ys)) sx sy hs vs bw q)
          [] (coef_block F pl W H hs vs q i by_ bx).
  Proof.
    intros Hi Hhs Hvs Hsx Hsy Hfit Hbx Hbx0 Hby0 Hys Hq. unfold make_block.
    eapply emits_bind0; [eapply get_block_ok; eassumption|].
    pose proof (sample_block_ok hs vs i by_ bx Hi Hhs Hvs Hbx0 Hby0) as Hs.
    rewrite (op_ret _ _ Hop) by assumption. cbn [bind].
    rewrite quantize_block_ret; [apply emits_ret|assumption|].
    intros k Hk. pose proof (op_bound _ _ Hop _ k Hs Hk) as Hb. destruct (k =? 0); lia.
  Qed.
End Img.
