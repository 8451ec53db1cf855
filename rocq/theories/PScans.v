(** The scan loops of the encoder are instances of the generic loop of PScan. *)
From Verif Require Export PScan.
From Verif Require Import T81.
From Coq Require Import ZifyBool ZifyNat.
Local Ltac Zify.zify_post_hook ::= Z.div_mod_to_equations.

(** ** Loop transformations *)
Lemma foldM_ext {A X} (f g : A -> X -> prog A) l a :
  (forall a x, In x l -> exec (f a x) = exec (g a x)) -> exec (foldM f l a) = exec (foldM g l a).
Proof.
  revert a. induction l as [|x l IH]; intros a H; cbn [foldM]; [reflexivity|].
  rewrite !exec_bind. rewrite (H a x) by now left.
  destruct (exec (g a x)) as [o [b|e|p]]; try reflexivity.
  rewrite IH; [reflexivity|]. intros; apply H; now right.
Qed.

Lemma foldM_map {A X Y} (f : A -> Y -> prog A) (h : X -> Y) l a :
  exec (foldM f (map h l) a) = exec (foldM (fun a x => f a (h x)) l a).
Proof.
  revert a. induction l as [|x l IH]; intros a; cbn [foldM map]; [reflexivity|].
  apply exec_bind_ext. intros; apply IH.
Qed.

Lemma foldM_app_exec {A X} (f : A -> X -> prog A) l1 l2 a :
  exec (foldM f (l1 ++ l2) a) = exec (bind (foldM f l1 a) (fun b => foldM f l2 b)).
Proof.
  revert a. induction l1 as [|x l1 IH]; intros a; cbn [foldM app bind]; [reflexivity|].
  rewrite bind_assoc. apply exec_bind_ext. intros; apply IH.
Qed.

Lemma foldM_nested {A X Y} (f : A -> X -> prog A) (g : A -> X -> Y -> prog A) (l : X -> list Y) xs a :
  (forall a x, In x xs -> exec (f a x) = exec (foldM (fun a y => g a x y) (l x) a)) ->
  exec (foldM f xs a) = exec (foldM (fun a xy => g a (fst xy) (snd xy))
                                    (flat_map (fun x => map (fun y => (x, y)) (l x)) xs) a).
Proof.
  revert a. induction xs as [|x xs IH]; intros a H; cbn [foldM flat_map]; [reflexivity|].
  rewrite foldM_app_exec, !exec_bind, foldM_map, H by now left. cbn [fst snd].
  destruct (exec (foldM (fun b y => g b x y) (l x) a)) as [o [b|e|p]]; try reflexivity.
  rewrite IH; [reflexivity|]. intros; apply H; now right.
Qed.

(** ** Quantized blocks that can be coded *)
Definition block_ok (b : list Z) : Prop :=
  length b = 64%nat /\ -1024 <= zn b 0 <= 1023 /\ Forall (fun v => Z.abs v < 2 ^ 10) (slice b 1 64).

Lemma block_ok_slice b s e : block_ok b -> 1 <= s -> e <= 64 ->
  Forall (fun v => Z.abs v < 2 ^ 10) (slice b s e).
Proof.
  intros (Hl & _ & HF) Hs He. unfold slice in *.
  rewrite Forall_forall in *. intros x Hx. apply HF.
  change (Z.to_nat (64 - 1)) with 63%nat. change (Z.to_nat 1) with 1%nat.
  rewrite firstn_all2 by (rewrite skipn_length; lia).
  assert (Hx' : In x (skipn (Z.to_nat s) b)).
  { rewrite <- (firstn_skipn (Z.to_nat (e - s)) (skipn (Z.to_nat s) b)). apply in_or_app. now left. }
  replace (Z.to_nat s) with (Z.to_nat s - 1 + 1)%nat in Hx' by lia.
  assert (E : forall (l : list Z) m n, skipn (m + n) l = skipn m (skipn n l)).
  { intros l m n. revert l. induction n as [|n IHn]; intros l.
    - now rewrite Nat.add_0_r.
    - destruct l as [|a l]; [now rewrite !skipn_nil|]. rewrite Nat.add_succ_r. cbn [skipn]. apply IHn. }
  rewrite E in Hx'. rewrite <- (firstn_skipn (Z.to_nat s - 1) (skipn 1 b)). apply in_or_app. now right.
Qed.

Lemma block_ok_dcdiff b p : block_ok b -> -1024 <= p <= 1023 -> Z.abs (zn b 0 - p) < 2 ^ 11.
Proof. intros (_ & H & _) Hp. change (2 ^ 11) with 2048. lia. Qed.

Lemma set_nth_same {A} (l : list A) n v x : nth_error l n = Some x -> nth_error (set_nth l n v) n = Some v.
Proof. revert n; induction l as [|a l IH]; intros [|n]; cbn; try discriminate; auto. Qed.
Lemma set_nth_other {A} (l : list A) n m v : n <> m -> nth_error (set_nth l n v) m = nth_error l m.
Proof. revert n m; induction l as [|a l IH]; intros [|n] [|m] H; cbn; auto; congruence. Qed.

Lemma nth_error_repeat0 n i : (i < n)%nat -> nth_error (repeat 0 n) i = Some 0.
Proof. revert i; induction n as [|n IH]; intros [|i] H; cbn; try lia; auto. apply IH; lia. Qed.

Lemma block_split b : length b = 64%nat -> b = zn b 0 :: slice b 1 64.
Proof.
  destruct b as [|x b]; intros H; [discriminate|]. unfold zn, slice. cbn [Z.to_nat nth].
  change (Pos.to_nat 1) with 1%nat. cbn [skipn]. rewrite firstn_all2; [reflexivity|].
  cbn [length] in H. change (Z.to_nat (64 - 1)) with 63%nat. lia.
Qed.

(** A unit of a single-component scan: its position and its block. *)
Definition unitb := (unit_pos * list Z)%type.

Section Single.
  Variable P : platform.
  Variable HP : plat_ok P.
  Variable ri : Z.
  Variable Hri : 0 <= ri < 2 ^ 16.
  Variables (nc ci : nat).
  Variable Hci : (ci < nc)%nat.
  Variables (tdc tac : htab) (bdc bac : table).

  Definition single_sim (s : Z) (ds : dstate) : Prop :=
    -1024 <= s <= 1023 /\ nth_error (fst ds) ci = Some s /\ snd ds = 0.

  Lemma single_sim0 : single_sim 0 (repeat 0 nc, 0).
  Proof. split; [lia|]. split; [|reflexivity]. cbn [fst]. now apply nth_error_repeat0. Qed.

  Definition ci_of (u : unitb) : nat := let '(c, _, _) := fst u in c.

  (** *** Sequential *)
  Definition seq_scan_params (sc : scan) : Prop :=
    sc_ss sc = 0 /\ sc_se sc = 63 /\ sc_dc sc ci = Some bdc /\ sc_ac sc ci = Some bac.

  Definition seq_step (s : Z) (u : unitb) (w : bitw) : prog (bitw * Z) :=
    let* w := write_block P w (snd u) s tdc tac in Ret (w, zn (snd u) 0).
  Definition seq_entry (u : unitb) : list entry := [{| en_pos := fst u; en_ss := 0; en_vals := snd u |}].
  Definition seq_good (s : Z) (u : unitb) : Prop :=
    ci_of u = ci /\ block_ok (snd u) /\ codes tdc bdc (nbits (zn (snd u) 0 - s)) /\
    Forall (codes tac bac) (ac_syms (slice (snd u) 1 64) 0).

  Lemma write_block_ok b prev prog :
    block_ok b -> -1024 <= prev <= 1023 -> codes tdc bdc (nbits (zn b 0 - prev)) ->
    Forall (codes tac bac) (ac_syms (slice b 1 64) 0) ->
    exists bits, appends P (fun w => write_block P w b prev tdc tac) bits /\
      forall rest, exists mid,
        decode_dc bdc prev (bits ++ rest) = Some (zn b 0, mid) /\
        decode_ac prog bac 64 1 63 mid = Some (slice b 1 64, 0, rest).
  Proof.
    intros Hb Hp Hdc Hac.
    destruct (write_dc_ok P tdc bdc (zn b 0) prev HP (block_ok_dcdiff _ _ Hb Hp) Hdc) as (b1 & Ha1 & Hd1).
    destruct (write_ac_block_ok P tac bac prog b 1 64 HP) as (b2 & Ha2 & Hd2); try lia; auto.
    - apply Hb.
    - apply block_ok_slice; auto; lia.
    - exists (b1 ++ b2). split.
      + unfold write_block. apply appends_bind; assumption.
      + intros rest. exists (b2 ++ rest). rewrite <- app_assoc. split; [apply Hd1|]. apply Hd2.
  Qed.

  Lemma appendsS_ret f bits (s' : Z) : appends P f bits ->
    appendsS P (fun w => let* w := f w in Ret (w, s')) bits s'.
  Proof.
    intros Ha w pend Hrep. destruct (Ha w pend Hrep) as (w' & d & p & He & Hr).
    exists w', d, p. split; [|exact Hr].
    rewrite <- (app_nil_r (stuff d)). eapply emits_bind; [exact He|]. apply emits_ret.
  Qed.

  Lemma seq_step_ok sc : seq_scan_params sc -> forall s u ds, single_sim s ds -> seq_good s u ->
    exists bits ds', appendsS P (seq_step s u) bits (zn (snd u) 0) /\ single_sim (zn (snd u) 0) ds' /\
      forall rest, decode_units sc ds [fst u] (bits ++ rest) = Some (seq_entry u, ds', rest).
  Proof.
    intros (Hss & Hse & Htd & Hta) s u ds (Hs & Hn & Hr) (Hc & Hb & Hdc & Hac).
    destruct (write_block_ok (snd u) s (sc_progressive sc) Hb Hs Hdc Hac) as (bits & Ha & Hd).
    exists bits, (set_nth (fst ds) ci (zn (snd u) 0), 0). split; [|split].
    - apply appendsS_ret. exact Ha.
    - destruct Hb as (_ & Hr0 & _). split; [exact Hr0|]. cbn [fst snd]. split; [|reflexivity].
      eapply set_nth_same; eassumption.
    - intros rest. destruct (Hd rest) as (mid & H1 & H2).
      destruct u as [[[c y] x] b], ds as [preds run]. cbn [fst snd ci_of] in *. subst c run.
      cbn [decode_units decode_unit]. rewrite Hss. cbn [Z.eqb].
      rewrite Htd, Hn, H1. rewrite Hse. cbn [Z.eqb]. rewrite Hta, H2.
      unfold seq_entry. cbn [fst snd]. rewrite <- (block_split b) by apply Hb. reflexivity.
  Qed.

  Lemma sequential_scan_loop us w :
    exec (sequential_scan P ri (map snd us) tdc tac w) =
    exec (loop P Z unitb ri 0 seq_step us (w, 0, 0, ri)).
  Proof.
    unfold sequential_scan, loop. rewrite !exec_bind, foldM_map.
    erewrite foldM_ext; [reflexivity|].
    intros [[[w' s] r] t] u _. unfold loop_body.
    apply exec_bind_ext. intros [w1 s1]. unfold seq_step. rewrite !exec_bind.
    destruct (exec (write_block P w1 (snd u) s1 tdc tac)) as [o [w2|e|p]]; try reflexivity.
    cbn [exec]. rewrite app_nil_r. reflexivity.
  Qed.

  Lemma sequential_scan_ok sc us :
    seq_scan_params sc -> us <> [] -> path Z unitb ri 0 (fun _ u => zn (snd u) 0) seq_good ri 0 us ->
    exists o, emits (sequential_scan P ri (map snd us) tdc tac (bitw_new P)) o (bitw_new P) /\
      bytes_ok o /\
      forall mk rest, mk <> 0 ->
        decode_intervals sc nc 0 (intervals ri (map (fun u => [fst u]) us)) (o ++ 255 :: mk :: rest)
        = Some (flat_map seq_entry us, 255 :: mk :: rest).
  Proof.
    intros Hsc Hne Hp.
    destruct (loop_ok P HP Z unitb ri Hri 0 seq_step sc nc (fun u => [fst u]) seq_entry
                (fun _ u => zn (snd u) 0) seq_good single_sim single_sim0) with (us := us)
      as (o & He & Hok & Hd); auto.
    - intros s ds H. apply H.
    - now apply seq_step_ok.
    - exists o. split; [|split; [exact Hok|exact Hd]].
      unfold emits. rewrite sequential_scan_loop. exact He.
  Qed.

  (** *** Progressive DC *)
  Definition dc_scan_params (sc : scan) : Prop :=
    sc_ss sc = 0 /\ sc_se sc = 0 /\ sc_dc sc ci = Some bdc.
  Definition dc_step (s : Z) (u : unitb) (w : bitw) : prog (bitw * Z) :=
    let* w := write_dc P w (zn (snd u) 0) s tdc in Ret (w, zn (snd u) 0).
  Definition dc_entry (u : unitb) : list entry :=
    [{| en_pos := fst u; en_ss := 0; en_vals := [zn (snd u) 0] |}].
  Definition dc_good (s : Z) (u : unitb) : Prop :=
    ci_of u = ci /\ block_ok (snd u) /\ codes tdc bdc (nbits (zn (snd u) 0 - s)).

  Lemma dc_step_ok sc : dc_scan_params sc -> forall s u ds, single_sim s ds -> dc_good s u ->
    exists bits ds', appendsS P (dc_step s u) bits (zn (snd u) 0) /\ single_sim (zn (snd u) 0) ds' /\
      forall rest, decode_units sc ds [fst u] (bits ++ rest) = Some (dc_entry u, ds', rest).
  Proof.
    intros (Hss & Hse & Htd) s u ds (Hs & Hn & Hr) (Hc & Hb & Hdc).
    destruct (write_dc_ok P tdc bdc (zn (snd u) 0) s HP (block_ok_dcdiff _ _ Hb Hs) Hdc) as (bits & Ha & Hd).
    exists bits, (set_nth (fst ds) ci (zn (snd u) 0), 0). split; [|split].
    - apply appendsS_ret. exact Ha.
    - destruct Hb as (_ & Hr0 & _). split; [exact Hr0|]. cbn [fst snd]. split; [|reflexivity].
      eapply set_nth_same; eassumption.
    - intros rest. pose proof (Hd rest) as H1.
      destruct u as [[[c y] x] b], ds as [preds run]. cbn [fst snd ci_of] in *. subst c run.
      cbn [decode_units decode_unit]. rewrite Hss. cbn [Z.eqb].
      rewrite Htd, Hn, H1. rewrite Hse. cbn [Z.eqb]. reflexivity.
  Qed.

  Lemma dc_scan_loop us w :
    exec (dc_scan P ri (map snd us) tdc w) = exec (loop P Z unitb ri 0 dc_step us (w, 0, 0, ri)).
  Proof.
    unfold dc_scan, loop. rewrite !exec_bind, foldM_map.
    erewrite foldM_ext; [reflexivity|].
    intros [[[w' s] r] t] u _. unfold loop_body.
    apply exec_bind_ext. intros [w1 s1]. unfold dc_step. rewrite !exec_bind.
    destruct (exec (write_dc P w1 (zn (snd u) 0) s1 tdc)) as [o [w2|e|p]]; try reflexivity.
    cbn [exec]. rewrite app_nil_r. reflexivity.
  Qed.

  Lemma dc_scan_ok sc us :
    dc_scan_params sc -> us <> [] -> path Z unitb ri 0 (fun _ u => zn (snd u) 0) dc_good ri 0 us ->
    exists o, emits (dc_scan P ri (map snd us) tdc (bitw_new P)) o (bitw_new P) /\
      bytes_ok o /\
      forall mk rest, mk <> 0 ->
        decode_intervals sc nc 0 (intervals ri (map (fun u => [fst u]) us)) (o ++ 255 :: mk :: rest)
        = Some (flat_map dc_entry us, 255 :: mk :: rest).
  Proof.
    intros Hsc Hne Hp.
    destruct (loop_ok P HP Z unitb ri Hri 0 dc_step sc nc (fun u => [fst u]) dc_entry
                (fun _ u => zn (snd u) 0) dc_good single_sim single_sim0) with (us := us)
      as (o & He & Hok & Hd); auto.
    - intros s ds H. apply H.
    - now apply dc_step_ok.
    - exists o. split; [|split; [exact Hok|exact Hd]].
      unfold emits. rewrite dc_scan_loop. exact He.
  Qed.

  (** *** Progressive AC *)
  Variables (start end_ : Z).
  Variable Hstart : 1 <= start.
  Variable Hend : start <= end_ <= 64.
  Definition ac_scan_params (sc : scan) : Prop :=
    sc_ss sc = start /\ sc_se sc = end_ - 1 /\ sc_ac sc ci = Some bac.
  Definition ac_step (s : unit) (u : unitb) (w : bitw) : prog (bitw * unit) :=
    let* w := write_ac_block P w (snd u) start end_ tac in Ret (w, tt).
  Definition ac_entry (u : unitb) : list entry :=
    [{| en_pos := fst u; en_ss := start; en_vals := slice (snd u) start end_ |}].
  Definition ac_good (s : unit) (u : unitb) : Prop :=
    ci_of u = ci /\ block_ok (snd u) /\ Forall (codes tac bac) (ac_syms (slice (snd u) start end_) 0).
  Definition ac_sim (s : unit) (ds : dstate) : Prop := snd ds = 0.

  Lemma ac_step_ok sc : ac_scan_params sc -> forall s u ds, ac_sim s ds -> ac_good s u ->
    exists bits ds', appendsS P (ac_step s u) bits tt /\ ac_sim tt ds' /\
      forall rest, decode_units sc ds [fst u] (bits ++ rest) = Some (ac_entry u, ds', rest).
  Proof.
    intros (Hss & Hse & Hta) s u ds Hr (Hc & Hb & Hac).
    destruct (write_ac_block_ok P tac bac (sc_progressive sc) (snd u) start end_ HP)
      as (bits & Ha & Hd); auto.
    { apply Hb. }
    { apply block_ok_slice; auto; lia. }
    exists bits, (fst ds, 0). split; [|split].
    - intros w pend Hrep. destruct (Ha w pend Hrep) as (w' & d & p & He & Hrr).
      exists w', d, p. split; [|exact Hrr].
      rewrite <- (app_nil_r (stuff d)). eapply emits_bind; [exact He|]. apply emits_ret.
    - reflexivity.
    - intros rest. pose proof (Hd rest) as H1. unfold ac_sim in Hr.
      destruct u as [[[c y] x] b], ds as [preds run]. cbn [fst snd ci_of] in *. subst c run.
      cbn [decode_units decode_unit]. rewrite Hss. replace (start =? 0) with false by lia.
      cbn [Z.ltb Z.compare]. rewrite Hta, Hse, H1. reflexivity.
  Qed.

  Lemma ac_scan_loop us w :
    exec (ac_scan P ri (map snd us) start end_ tac w) =
    exec (loop P unit unitb ri tt ac_step us (w, tt, 0, ri)).
  Proof.
    unfold ac_scan, loop. rewrite !exec_bind.
    match goal with |- context [foldM ?F (map snd us)] => set (f := F) end.
    rewrite foldM_map.
    assert (G : forall us w r t,
      exec (foldM (fun a u => f a (snd u)) us (w, r, t)) =
      match exec (foldM (loop_body P unit unitb ri tt ac_step) us (w, tt, r, t)) with
      | (o, Ok (w, _, r, t)) => (o, Ok (w, r, t))
      | (o, Err e) => (o, Err e)
      | (o, Panicked p) => (o, Panicked p)
      end).
    { clear us w. induction us as [|u us IH]; intros w r t; [reflexivity|].
      cbn [foldM]. rewrite !exec_bind.
      assert (Hf : exec (f (w, r, t) (snd u)) =
        match exec (loop_body P unit unitb ri tt ac_step (w, tt, r, t) u) with
        | (o, Ok (w, _, r, t)) => (o, Ok (w, r, t))
        | (o, Err e) => (o, Err e)
        | (o, Panicked p) => (o, Panicked p)
        end).
      { unfold f, loop_body, ac_step.
        assert (E : exec (if (0 <? ri) && (t =? 0)
            then let* w0 := finalize_bit_buffer P w in (write_marker (RST (r mod 8));;; Ret w0)
            else Ret w) =
           match exec (if (0 <? ri) && (t =? 0)
            then let* w0 := finalize_bit_buffer P w in (write_marker (RST (r mod 8));;; Ret (w0, tt))
            else Ret (w, tt)) with
           | (o, Ok (w, _)) => (o, Ok w)
           | (o, Err e) => (o, Err e)
           | (o, Panicked p) => (o, Panicked p)
           end).
        { destruct ((0 <? ri) && (t =? 0)); [|reflexivity].
          rewrite !exec_bind. destruct (exec (finalize_bit_buffer P w)) as [o [w1|e|p]]; try reflexivity.
        }
        rewrite !exec_bind, E.
        destruct (exec (if (0 <? ri) && (t =? 0)
            then let* w0 := finalize_bit_buffer P w in (write_marker (RST (r mod 8));;; Ret (w0, tt))
            else Ret (w, tt))) as [o [[w1 []]|e|p]]; try reflexivity.
        rewrite !exec_bind.
        destruct (exec (write_ac_block P w1 (snd u) start end_ tac)) as [o1 [w2|e|p]]; try reflexivity.
        cbn [exec]. rewrite app_nil_r, !exec_bind.
        destruct (exec (restart_after P ri r t)) as [o2 [[r2 t2]|e|p]]; try reflexivity. }
      rewrite Hf. destruct (exec (loop_body P unit unitb ri tt ac_step (w, tt, r, t) u))
        as [o [[[[w1 []] r1] t1]|e|p]]; try reflexivity.
      rewrite IH. destruct (exec (foldM (loop_body P unit unitb ri tt ac_step) us (w1, tt, r1, t1)))
        as [o2 [[[[w2 []] r2] t2]|e|p]]; reflexivity. }
    rewrite G. destruct (exec (foldM (loop_body P unit unitb ri tt ac_step) us (w, tt, 0, ri)))
        as [o2 [[[[w2 []] r2] t2]|e|p]]; reflexivity.
  Qed.

  Lemma ac_scan_ok sc us :
    ac_scan_params sc -> us <> [] -> Forall (ac_good tt) us ->
    exists o, emits (ac_scan P ri (map snd us) start end_ tac (bitw_new P)) o (bitw_new P) /\
      bytes_ok o /\
      forall mk rest, mk <> 0 ->
        decode_intervals sc nc 0 (intervals ri (map (fun u => [fst u]) us)) (o ++ 255 :: mk :: rest)
        = Some (flat_map ac_entry us, 255 :: mk :: rest).
  Proof.
    intros Hsc Hne HF.
    destruct (loop_ok_uniform P HP unit unitb ri Hri tt ac_step sc nc (fun u => [fst u]) ac_entry
                (fun _ u => tt) ac_good ac_sim) with (us := us) as (o & He & Hok & Hd); auto.
    - reflexivity.
    - now apply ac_step_ok.
    - eapply Forall_impl; [|exact HF]. intros u Hu [] ds _. exact Hu.
    - exists o. split; [|split; [exact Hok|exact Hd]].
      unfold emits. rewrite ac_scan_loop. exact He.
  Qed.
End Single.
