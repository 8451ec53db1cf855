(** Which rows the encoder asks for, in which order, for an arbitrary image buffer. *)
From Verif Require Export PCong PGeom SRows PRound.
From Coq Require Import ZifyBool ZifyNat.

Lemma shuffle_app {A} (a b c a' b' c' : list A) : shuffle a b c -> shuffle a' b' c' -> shuffle (a ++ a') (b ++ b') (c ++ c').
Proof. induction 1; intros; cbn [app]; [assumption| |]; constructor; auto. Qed.
Lemma shuffle_left {A} (a : list A) : shuffle a [] a.
Proof. induction a; constructor; auto. Qed.
Lemma shuffle_right {A} (a : list A) : shuffle [] a a.
Proof. induction a; constructor; auto. Qed.

Section Trace.
  Variable tok : Z -> list Z.
  (** [m2] does what [m1] does and in addition reports [l] (or an initial part, if it stops early). *)
  Definition traced {A} (l : list Z) (m1 m2 : prog A) : Prop :=
    snd (exec m2) = snd (exec m1) /\
    exists k, (forall a, snd (exec m1) = Ok a -> (length l <= k)%nat) /\ shuffle (fst (exec m1)) (flat_map tok (firstn k l)) (fst (exec m2)).

  Lemma traced_refl {A} (m : prog A) : traced [] m m.
  Proof. split; [reflexivity|]. exists 0%nat. split; [intros; cbn; lia|]. apply shuffle_left. Qed.
  Lemma traced_bind {A B} l l' (m1 m2 : prog A) (f1 f2 : A -> prog B) :
    traced l m1 m2 -> (forall a, traced l' (f1 a) (f2 a)) -> traced (l ++ l') (bind m1 f1) (bind m2 f2).
  Proof.
    intros [E (k & Hk & S)] Hf. unfold traced. rewrite !exec_bind.
    destruct (exec m1) as [o1 r1] eqn:E1. destruct (exec m2) as [o2 r2] eqn:E2. cbn [fst snd] in *. subst r2.
    destruct r1 as [a|e|p].
    - destruct (Hf a) as [E' (k' & Hk' & S')].
      destruct (exec (f1 a)) as [o1' r1'] eqn:E1'. destruct (exec (f2 a)) as [o2' r2'] eqn:E2'. cbn [fst snd] in *. subst r2'.
      split; [reflexivity|]. exists (length l + k')%nat. split.
      + intros b Hb. rewrite app_length. specialize (Hk' b Hb). lia.
      + rewrite firstn_app_2, flat_map_app. apply shuffle_app; [|exact S'].
        rewrite firstn_all2 in S by (apply (Hk a); reflexivity). exact S.
    - split; [reflexivity|]. exists (Nat.min k (length l)). split; [discriminate|]. cbn [fst].
      rewrite firstn_app. replace (Nat.min k (length l) - length l)%nat with 0%nat by lia. rewrite firstn_O, app_nil_r.
      rewrite <- firstn_firstn, firstn_all. exact S.
    - split; [reflexivity|]. exists (Nat.min k (length l)). split; [discriminate|]. cbn [fst].
      rewrite firstn_app. replace (Nat.min k (length l) - length l)%nat with 0%nat by lia. rewrite firstn_O, app_nil_r.
      rewrite <- firstn_firstn, firstn_all. exact S.
  Qed.
  Lemma traced_bind_l {A B} l (m1 m2 : prog A) (f : A -> prog B) : traced l m1 m2 -> traced l (bind m1 f) (bind m2 f).
  Proof. intros H. rewrite <- (app_nil_r l). apply traced_bind; [exact H|]. intros a. apply traced_refl. Qed.
  Lemma traced_bind_r {A B} l (m : prog A) (f1 f2 : A -> prog B) : (forall a, traced l (f1 a) (f2 a)) -> traced l (bind m f1) (bind m f2).
  Proof. intros H. rewrite <- (app_nil_l l). apply traced_bind; [apply traced_refl|exact H]. Qed.
  Lemma traced_foldM {A X} (g : X -> list Z) (f1 f2 : A -> X -> prog A) xs :
    (forall a x, traced (g x) (f1 a x) (f2 a x)) -> forall a, traced (flat_map g xs) (foldM f1 xs a) (foldM f2 xs a).
  Proof.
    intros H. induction xs as [|x xs IH]; intros a; cbn [foldM flat_map]; [apply traced_refl|].
    apply traced_bind; [apply H|exact IH].
  Qed.

  Variable im : image.
  Let im' := reporting tok im.

  Lemma traced_fill y bs : traced [y] (im_fill im y bs) (im_fill im' y bs).
  Proof.
    unfold traced. cbn [im' reporting im_fill exec]. destruct (exec (im_fill im y bs)) as [o r]. cbn [fst snd].
    split; [reflexivity|]. exists 1%nat. split; [intros; cbn; lia|]. cbn [firstn flat_map]. rewrite app_nil_r.
    rewrite <- (app_nil_l o) at 1. rewrite <- (app_nil_r (tok y)) at 1.
    apply shuffle_app; [apply shuffle_right|apply shuffle_left].
  Qed.
  Lemma traced_rows bw ys row : traced (map (fun y => Z.min y (im_height im - 1)) ys) (fill_rows im bw ys row) (fill_rows im' bw ys row).
  Proof.
    unfold fill_rows. replace (map (fun y => Z.min y (im_height im - 1)) ys) with (flat_map (fun y => [Z.min y (im_height im - 1)]) ys).
    2:{ clear. induction ys; cbn; congruence. }
    apply (traced_foldM (fun y => [Z.min y (im_height im - 1)])). intros r y. cbv zeta. apply traced_bind_l. apply traced_fill.
  Qed.

  Variable cs : list component.
  Variables mh mv : Z.
  Variable Hcs : comps_ok cs mh mv.
  Variable Hh : 0 <= im_height im.
  Let rows := map (fun y => Z.min y (im_height im - 1)) (zrange (ceil_div (im_height im) (8 * mv) * mv * 8)).

  Lemma traced_blocks P op q0 q1 : traced rows (encode_blocks P op cs im q0 q1) (encode_blocks P op cs im' q0 q1).
  Proof.
    unfold encode_blocks. cbv zeta. change (im_width im') with (im_width im). change (im_height im') with (im_height im).
    rewrite (cs_max _ _ _ Hcs).
    do 4 (apply traced_bind_r; intros ?). apply traced_bind_l. apply traced_rows.
  Qed.
  Lemma traced_sequential P op e q0 q1 w :
    traced rows (encode_image_sequential P op e cs im q0 q1 w) (encode_image_sequential P op e cs im' q0 q1 w).
  Proof. unfold encode_image_sequential. cbv zeta. apply traced_bind_l. apply traced_blocks. Qed.
  Lemma traced_progressive P op e s q0 q1 w :
    traced rows (encode_image_progressive P op e s cs im q0 q1 w) (encode_image_progressive P op e s cs im' q0 q1 w).
  Proof. unfold encode_image_progressive. cbv zeta. apply traced_bind_l. apply traced_blocks. Qed.

  Lemma zrange_blocks a b : 0 <= a -> 0 <= b -> flat_map (fun k => map (fun y => y + k * b) (zrange b)) (zrange a) = zrange (a * b).
  Proof.
    intros Ha Hb. replace a with (Z.of_nat (Z.to_nat a)) by lia. induction (Z.to_nat a) as [|n IH]; [reflexivity|].
    replace (Z.of_nat (S n)) with (Z.of_nat n + 1) by lia. rewrite zrange_succ, flat_map_app, IH by lia. cbn [flat_map]. rewrite app_nil_r.
    rewrite Z.mul_add_distr_r, Z.mul_1_l, zrange_app by nia. f_equal. apply map_ext. intros y. lia.
  Qed.
  Lemma traced_interleaved P op e q0 q1 w :
    traced rows (encode_image_interleaved P op e cs im q0 q1 w) (encode_image_interleaved P op e cs im' q0 q1 w).
  Proof.
    pose proof (cs_mv _ _ _ Hcs) as Hmv.
    assert (Hc : 0 <= ceil_div (im_height im) (8 * mv)) by (pose proof (ceil_div_spec (im_height im) (8 * mv) ltac:(lia)); nia).
    unfold encode_image_interleaved. cbv zeta. change (im_width im') with (im_width im). change (im_height im') with (im_height im).
    rewrite (cs_max _ _ _ Hcs).
    apply traced_bind_r; intros _. apply traced_bind_r; intros _. apply traced_bind_r; intros _. apply traced_bind_r; intros row0.
    apply traced_bind_l.
    replace rows with (flat_map (fun block_y => map (fun y => Z.min y (im_height im - 1)) (map (fun y => y + block_y * 8 * mv) (zrange (8 * mv))))
                         (zrange (ceil_div (im_height im) (8 * mv)))).
    2:{ unfold rows. rewrite <- (Z.mul_assoc _ mv 8), (Z.mul_comm mv 8), <- (zrange_blocks (ceil_div (im_height im) (8 * mv)) (8 * mv)) by lia.
        rewrite !flat_map_concat_map, concat_map, map_map. f_equal. apply map_ext. intros k. rewrite !map_map. apply map_ext. intros y. f_equal. lia. }
    apply (traced_foldM (fun block_y => map (fun y => Z.min y (im_height im - 1)) (map (fun y => y + block_y * 8 * mv) (zrange (8 * mv))))).
    intros st block_y. apply traced_bind_l. apply traced_rows.
  Qed.
End Trace.

Lemma traced_internal tok P op e im : e_components e = [] -> 0 <= im_height im ->
  let mv := max_v (e_sampling e) (im_color im) in
  exists l, (l = [] /\ (forall a, snd (exec (encode_image_internal P op e im)) <> Ok a) \/
             l = map (fun y => Z.min y (im_height im - 1)) (zrange (ceil_div (im_height im) (8 * mv) * mv * 8))) /\
    traced tok l (encode_image_internal P op e im) (encode_image_internal P op e (reporting tok im)).
Proof.
  intros Hce Hh mv. unfold encode_image_internal. change (im_width (reporting tok im)) with (im_width im).
  change (im_height (reporting tok im)) with (im_height im). change (im_color (reporting tok im)) with (im_color im).
  destruct ((im_width im =? 0) || (im_height im =? 0)) eqn:E.
  - exists []. split; [left; split; [reflexivity|]; intros a; discriminate|]. apply traced_refl.
  - eexists. split; [right; reflexivity|]. rewrite Hce. cbn [app].
    pose proof (init_components_ok (e_sampling e) (im_color im)) as Hcs.
    do 4 (apply traced_bind_r; intros ?). cbv zeta. do 4 (apply traced_bind_r; intros ?).
    apply traced_bind_l. fold mv in Hcs.
    destruct (e_prog e); [exact (traced_progressive tok im _ _ _ Hcs P op e _ _ _ _)|].
    destruct (e_optimize e || negb (supports_interleaved (e_sampling e)));
      [exact (traced_sequential tok im _ _ _ Hcs P op e _ _ _)|exact (traced_interleaved tok im _ _ _ Hcs Hh P op e _ _ _)].
Qed.
