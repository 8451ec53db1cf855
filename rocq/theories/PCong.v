(** The output depends on the image buffer only through the rows it delivers. *)
From Verif Require Export MApi PExec SImage.
From Coq Require Import ZifyBool ZifyNat.
Local Ltac Zify.zify_post_hook ::= Z.div_mod_to_equations.

Lemma exec_bind_cong {A B} (m1 m2 : prog A) (f1 f2 : A -> prog B) :
  exec m1 = exec m2 -> (forall o a, exec m1 = (o, Ok a) -> exec (f1 a) = exec (f2 a)) -> exec (bind m1 f1) = exec (bind m2 f2).
Proof.
  intros Hm Hf. rewrite !exec_bind. rewrite <- Hm. destruct (exec m1) as [o [a|e|p]] eqn:E; try reflexivity.
  now rewrite (Hf o a eq_refl).
Qed.

Lemma exec_foldM_cong {A X} (Q : A -> Prop) (R : X -> Prop) (f1 f2 : A -> X -> prog A) l :
  Forall R l ->
  (forall a x, Q a -> R x -> exec (f1 a x) = exec (f2 a x) /\ forall o b, exec (f1 a x) = (o, Ok b) -> Q b) ->
  forall a, Q a -> exec (foldM f1 l a) = exec (foldM f2 l a).
Proof.
  intros HR Hf. induction HR as [|x l Hx HR IH]; intros a Ha; cbn [foldM]; [reflexivity|].
  destruct (Hf a x Ha Hx) as [E HQ]. apply exec_bind_cong; [exact E|]. intros o b Hb. apply IH. exact (HQ o b Hb).
Qed.

Record same_rows (im1 im2 : image) : Prop := {
  sr_color : im_color im1 = im_color im2;
  sr_width : im_width im1 = im_width im2;
  sr_height : im_height im1 = im_height im2;
  sr_fill : forall y bs, 0 <= y < im_height im1 -> length bs = 4%nat ->
    exec (im_fill im1 y bs) = exec (im_fill im2 y bs) /\
    forall o r, exec (im_fill im1 y bs) = (o, Ok r) -> length r = 4%nat
}.

Lemma pad_row_length w bw row : length (pad_row w bw row) = length row.
Proof.
  unfold pad_row. generalize (zseg w bw). intros l. revert row.
  induction l as [|x l IH]; intros row; cbn [fold_left]; [reflexivity|]. now rewrite IH, map_length.
Qed.

Lemma map_nonneg_zrange f n : (forall k, 0 <= k -> 0 <= f k) -> Forall (fun y => 0 <= y) (map f (zrange n)).
Proof.
  intros Hf. apply Forall_forall. intros y Hy. apply in_map_iff in Hy as (k & <- & Hk). apply Hf.
  apply in_map_iff in Hk as (j & <- & _). lia.
Qed.
Lemma nonneg_zrange n : Forall (fun y => 0 <= y) (zrange n).
Proof. apply Forall_forall. intros y Hy. apply in_map_iff in Hy as (j & <- & _). lia. Qed.

Section Cong.
  Variables im1 im2 : image.
  Variable H : same_rows im1 im2.
  Variable Hh : 1 <= im_height im1.
  Let Ec := sr_color _ _ H.
  Let Ew := sr_width _ _ H.
  Let Eh := sr_height _ _ H.

  Lemma fill_rows_cong bw ys row : Forall (fun y => 0 <= y) ys -> length row = 4%nat ->
    exec (fill_rows im1 bw ys row) = exec (fill_rows im2 bw ys row).
  Proof.
    intros Hy Hr. unfold fill_rows. apply (exec_foldM_cong (fun r => length r = 4%nat) (fun y => 0 <= y)); [exact Hy| |exact Hr].
    clear row Hr ys Hy. intros row y Hr Hy. cbv zeta. rewrite <- Eh, <- Ew.
    destruct (sr_fill _ _ H (Z.min y (im_height im1 - 1)) row ltac:(lia) Hr) as [E HQ].
    split.
    - apply exec_bind_cong; [exact E|reflexivity].
    - intros o b. rewrite exec_bind. destruct (exec (im_fill im1 (Z.min y (im_height im1 - 1)) row)) as [o1 [r|?|?]]; try discriminate.
      cbn [exec]. intros X; inversion X; subst. rewrite pad_row_length. exact (HQ _ _ eq_refl).
  Qed.

  Lemma init_rows_4 cs o row : exec (init_rows cs) = (o, Ok row) -> length row = 4%nat.
  Proof.
    unfold init_rows. destruct (length cs) as [|[|[|[|[|]]]]]; cbn [exec]; intros X; inversion X; subst; reflexivity.
  Qed.

  Lemma encode_blocks_cong P op cs q0 q1 :
    exec (encode_blocks P op cs im1 q0 q1) = exec (encode_blocks P op cs im2 q0 q1).
  Proof.
    unfold encode_blocks. cbv zeta. rewrite <- Ew, <- Eh. destruct (max_sampling cs) as [mh mv].
    apply exec_bind_cong; [reflexivity|intros _ _ _].
    apply exec_bind_cong; [reflexivity|intros _ _ _].
    apply exec_bind_cong; [reflexivity|intros _ _ _].
    apply exec_bind_cong; [reflexivity|intros o row Hr].
    apply exec_bind_cong; [|reflexivity].
    apply fill_rows_cong; [apply nonneg_zrange|exact (init_rows_4 _ _ _ Hr)].
  Qed.

  Lemma enc_frame_cong P e cs ht q0 q1 :
    enc_write_frame_header P e cs ht im1 q0 q1 = enc_write_frame_header P e cs ht im2 q0 q1.
  Proof. unfold enc_write_frame_header. now rewrite Ew, Eh, Ec. Qed.

  Lemma sequential_cong P op e cs q0 q1 w :
    exec (encode_image_sequential P op e cs im1 q0 q1 w) = exec (encode_image_sequential P op e cs im2 q0 q1 w).
  Proof.
    unfold encode_image_sequential. cbv zeta. apply exec_bind_cong; [apply encode_blocks_cong|intros _ bs _].
    rewrite exec_bind_ext with (g := fun ht => (enc_write_frame_header P e cs ht im2 q0 q1;;;
      foldM (fun w '(i, c) => write_scan_header [c] None ;;; let* bs0 := index bs i in let* dc := dc_table ht c in let* ac := ac_table ht c in
        sequential_scan P (match e_restart e with Some r => r | None => 0 end) bs0 dc ac w) (enumerate cs) w)); [reflexivity|].
    intros ht. now rewrite enc_frame_cong.
  Qed.
  Lemma progressive_cong P op e s cs q0 q1 w :
    exec (encode_image_progressive P op e s cs im1 q0 q1 w) = exec (encode_image_progressive P op e s cs im2 q0 q1 w).
  Proof.
    unfold encode_image_progressive. cbv zeta. apply exec_bind_cong; [apply encode_blocks_cong|intros _ bs _].
    apply exec_bind_ext. intros ht. rewrite enc_frame_cong. reflexivity.
  Qed.
  Lemma interleaved_cong P op e cs q0 q1 w :
    exec (encode_image_interleaved P op e cs im1 q0 q1 w) = exec (encode_image_interleaved P op e cs im2 q0 q1 w).
  Proof.
    unfold encode_image_interleaved. rewrite enc_frame_cong. cbv zeta. rewrite <- Ew, <- Eh.
    apply exec_bind_ext. intros _. apply exec_bind_ext. intros _.
    destruct (max_sampling cs) as [mh mv] eqn:Em.
    assert (Hmv : 0 <= mv).
    { unfold max_sampling in Em. inversion Em; subst. clear.
      assert (G : forall l a, 0 <= a -> 0 <= fold_left (fun m c => Z.max m (c_v c)) l a).
      { induction l as [|c l IH]; intros a Ha; cbn [fold_left]; [exact Ha|]. apply IH. lia. }
      apply G. lia. }
    apply exec_bind_ext. intros _. apply exec_bind_cong; [reflexivity|intros o row Hr]. apply init_rows_4 in Hr.
    apply exec_bind_cong; [|reflexivity].
    apply (exec_foldM_cong (fun _ => True) (fun y => 0 <= y)); [apply nonneg_zrange| |exact I].
    intros st by_ _ Hby. split; [|trivial].
    apply exec_bind_cong; [|reflexivity].
    apply fill_rows_cong; [apply map_nonneg_zrange; intros; nia|now rewrite map_length].
  Qed.

  Theorem internal_cong P op e :
    exec (encode_image_internal P op e im1) = exec (encode_image_internal P op e im2).
  Proof.
    unfold encode_image_internal. rewrite <- Ew, <- Eh, <- Ec.
    destruct ((im_width im1 =? 0) || (im_height im1 =? 0)); [reflexivity|].
    do 4 (apply exec_bind_ext; intros ?). cbv zeta.
    do 4 (apply exec_bind_ext; intros ?).
    apply exec_bind_cong; [|reflexivity].
    destruct (e_prog e); [apply progressive_cong|].
    destruct (_ || _); [apply sequential_cong|apply interleaved_cong].
  Qed.
End Cong.
