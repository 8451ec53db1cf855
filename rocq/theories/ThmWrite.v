(** C49: any std::io::Write, however it splits, delays or fails the writes. *)
From Verif Require Import MWrite PRound PApi PEncode PWr PExec ThmApi SApi ThmRound MApi MEncoder.
From Coq Require Import ZifyBool ZifyNat Wellfounded.

(** ** Specification *)
(** The writer keeps the contract of std::io::Write::write: it does not claim more bytes than it got. *)
Definition honest {S} (w : writer S) : Prop := forall s bs s' n, w s bs = (s', Wrote n) -> (n <= length bs)%nat.
(** It takes at least one byte of everything, possibly after finitely many interruptions. *)
Inductive ready {S} (w : writer S) (bs : list Z) : S -> Prop :=
| ready_now s s' n : w s bs = (s', Wrote n) -> (1 <= n <= length bs)%nat -> ready w bs s
| ready_later s s' : w s bs = (s', Interrupted) -> ready w bs s' -> ready w bs s.
Definition patient {S} (w : writer S) : Prop := forall s bs, bs <> [] -> ready w bs s.

(** The state [s'] is the one right after a write that failed with [e]. *)
Definition failed_with {S} (w : writer S) (s' : S) (e : error) : Prop :=
  exists s bs, bs <> [] /\ (w s bs = (s', Failed e) \/ w s bs = (s', Wrote 0) /\ e = SinkError 0).

(** ** Proofs *)
Lemma write_all_shape {S} (w : writer S) s bs s' acc r : honest w -> std_write_all w s bs s' acc r ->
  (r = Ok tt /\ acc = bs) \/ (exists e rest, r = Err e /\ bs = acc ++ rest /\ failed_with w s' e).
Proof.
  intros Hw H. induction H as [s|s bs s' Hb E|s bs s' n s'' acc r Hb E Hn H IH|s bs s' s'' acc r Hb E H IH|s bs s' e Hb E|s bs s' n Hb E Hn].
  - left. auto.
  - right. exists (SinkError 0), bs. split; [reflexivity|]. split; [reflexivity|]. exists s, bs. auto.
  - destruct IH as [[-> ->]|(e & rest & -> & Er & Hf)].
    + left. split; [reflexivity|]. apply firstn_skipn.
    + right. exists e, rest. split; [reflexivity|]. split; [|exact Hf]. rewrite <- app_assoc, <- Er. symmetry. apply firstn_skipn.
  - exact IH.
  - right. exists e, bs. split; [reflexivity|]. split; [reflexivity|]. exists s, bs. auto.
  - apply Hw in E. lia.
Qed.
Lemma write_all_patient {S} (w : writer S) : patient w -> forall n bs s, length bs = n ->
  exists s', std_write_all w s bs s' bs (Ok tt).
Proof.
  intros Hp n. induction n as [n IH] using lt_wf_ind. intros bs s Hl.
  destruct bs as [|b bs]; [exists s; constructor|].
  assert (R := Hp s (b :: bs) ltac:(discriminate)). induction R as [s s' k E Hk|s s' E R IHR].
  - destruct (IH (length (skipn k (b :: bs))) ltac:(rewrite skipn_length; lia) (skipn k (b :: bs)) s' eq_refl) as (s'' & H).
    exists s''. rewrite <- (firstn_skipn k (b :: bs)) at 2. eapply wa_some; try eassumption. discriminate.
  - destruct IHR as (s'' & H). exists s''. eapply wa_interrupted; try eassumption. discriminate.
Qed.
Lemma write_all_det {S} (w : writer S) s bs s1 a1 r1 : std_write_all w s bs s1 a1 r1 ->
  forall s2 a2 r2, std_write_all w s bs s2 a2 r2 -> s1 = s2 /\ a1 = a2 /\ r1 = r2.
Proof.
  intros H. induction H as [s|s bs s' Hb E|s bs s' n s'' acc r Hb E Hn H IH|s bs s' s'' acc r Hb E H IH|s bs s' e Hb E|s bs s' n Hb E Hn];
    intros t2 a2 r2 X; inversion X as [? | ? ? ? Yb Y | ? ? ? ? ? ? ? Yb Y Yn Yr | ? ? ? ? ? ? Yb Y Yr | ? ? ? ? Yb Y | ? ? ? ? Yb Y Yn]; subst;
    try contradiction; auto; rewrite E in Y; try discriminate Y; injection Y; intros; subst; try lia; auto;
    edestruct IH as (-> & -> & ->); eauto.
Qed.
Lemma run_std_det {S A} (w : writer S) (p : prog A) s s1 a1 r1 : run_std w p s s1 a1 r1 ->
  forall s2 a2 r2, run_std w p s s2 a2 r2 -> s1 = s2 /\ a1 = a2 /\ r1 = r2.
Proof.
  intros H. induction H as [a s|e s|r s|bs k s s1 acc1 s2 acc2 r W R IH|bs k s s1 acc1 e s2 acc2 r W R IH|bs k s s1 acc1 p W];
    intros t2 a2 r2 X; inversion X as [? ?|? ?|? ?|? ? ? ? ? ? ? ? W2 R2|? ? ? ? ? ? ? ? ? W2 R2|? ? ? ? ? ? W2]; subst; auto;
    destruct (write_all_det _ _ _ _ _ _ W _ _ _ W2) as (-> & -> & E); try discriminate E.
  - edestruct IH as (-> & -> & ->); eauto.
  - injection E as ->. edestruct IH as (-> & -> & ->); eauto.
  - injection E as ->. auto.
Qed.

Definition strict {A} (p : prog A) : Prop := wr p \/ exists e, p = Throw e.
Lemma strict_run {S A} (w : writer S) (p : prog A) : strict p -> honest w -> forall s s' acc r, run_std w p s s' acc r ->
  exists rest, fst (exec p) = acc ++ rest /\
    ((r = snd (exec p) /\ rest = []) \/ (exists e, r = Err e /\ failed_with w s' e)).
Proof.
  intros [Hp|[e ->]] Hw.
  2:{ intros s s' acc r H. inversion H; subst. exists []. split; [reflexivity|]. left. split; reflexivity. }
  induction Hp as [a|p|bs k Hk Hn IH]; intros s s' acc r H;
    inversion H as [? ?|? ?|? ?|? ? ? ? ? ? ? ? H5 H7|? ? ? ? ? ? ? ? ? H5 H7|? ? ? ? ? ? H5]; subst.
  - exists []. split; [reflexivity|]. left. split; reflexivity.
  - exists []. split; [reflexivity|]. left. split; reflexivity.
  - destruct (write_all_shape w _ _ _ _ _ Hw H5) as [[_ ->]|(e & rest & X & _)]; [|discriminate X].
    destruct (IH _ _ _ _ H7) as (rest & E & R). cbn [exec]. destruct (exec (k None)) as [o x]. cbn [fst snd] in *.
    exists rest. rewrite E, <- app_assoc. split; [reflexivity|exact R].
  - destruct (write_all_shape w _ _ _ _ _ Hw H5) as [[X _]|(e0 & rest & X & -> & Hf)]; [discriminate X|]. injection X as <-.
    rewrite Hk in H7. inversion H7; subst. rewrite app_nil_r. cbn [exec]. destruct (exec (k None)) as [o x]. cbn [fst snd].
    exists (rest ++ o). rewrite <- app_assoc. split; [reflexivity|]. right. exists e. auto.
  - destruct (write_all_shape w _ _ _ _ _ Hw H5) as [[X _]|(e0 & rest & X & _)]; discriminate X.
Qed.
Lemma any_run {S A} (w : writer S) : patient w -> forall (p : prog A) s, exists s', run_std w p s s' (fst (exec p)) (snd (exec p)).
Proof.
  intros Hw. induction p as [a|e|r|bs k IH]; intros s; try (exists s; constructor).
  destruct (write_all_patient w Hw (length bs) bs s eq_refl) as (s1 & H1). destruct (IH None s1) as (s2 & H2). exists s2.
  cbn [exec]. destruct (exec (k None)) as [o x]. cbn [fst snd] in *. eapply rs_write; eassumption.
Qed.

Lemma run_encode_strict P quality calls data w h c : strict (run_encode P quality calls data w h c).
Proof.
  unfold run_encode.
  assert (Hb : (exists r, build P quality calls = Ret r) \/ (exists r, build P quality calls = Panic r)).
  { unfold build, encoder_new. rewrite std_luma_dc_ret, std_luma_ac_ret, std_chroma_dc_ret, std_chroma_ac_ret. cbn [bind].
    match goal with |- context [do_calls P calls ?e0] => generalize e0 end. induction calls as [|c0 cs IH]; intros e0.
    - left. eexists; reflexivity.
    - cbn [do_calls]. assert (Hc : (exists r, do_call P c0 e0 = Ret r) \/ exists r, do_call P c0 e0 = Panic r).
      { destruct c0; cbn [do_call]; try (left; eexists; reflexivity).
        - unfold set_progressive_scans, assert_. destruct (_ && _); [left|right]; eexists; reflexivity.
        - rewrite add_icc_profile_ret. left. eexists; reflexivity. }
      destruct Hc as [[[e1 r1] ->]|[r ->]]; cbn [bind]; [|right; eexists; reflexivity].
      destruct (IH e1) as [[[e2 r2] ->]|[r ->]]; cbn [bind]; [left|right]; eexists; reflexivity. }
  destruct Hb as [[[e r] ->]|[r ->]]; cbn [bind]; [|left; constructor].
  apply encode_wr_or_throw.
Qed.
Lemma run_encode_image_strict P quality calls im : Forall call_wf calls -> im_wr im -> strict (run_encode_image P quality calls im).
Proof.
  intros Hc Him. rewrite run_encode_image_eq by assumption.
  destruct (Z.eq_dec (im_width im) 0) as [H1|H1]; [|destruct (Z.eq_dec (im_height im) 0) as [H2|H2]].
  - right. unfold encode_image_internal. rewrite H1. eexists. reflexivity.
  - right. unfold encode_image_internal. rewrite H2. replace ((im_width im =? 0) || (0 =? 0)) with true by (cbn; lia). eexists. reflexivity.
  - left. apply wr_internal; try assumption. apply default_op_wr.
Qed.

(** ** C49 *)
(** Whatever the writer does within its contract, it receives a beginning of the bytes that the encoder
    produces for a [Vec<u8>], in order; either all of them, and the outcome is the same, or the result is the
    error of the write that failed, which was the last one. *)
Theorem C49_any_writer : forall S (w : writer S) P quality calls data width height c s s' acc r, honest w ->
  let p := run_encode P quality calls data width height c in
  run_std w p s s' acc r ->
  exists rest, fst (exec p) = acc ++ rest /\
    ((r = snd (exec p) /\ rest = []) \/ (exists e, r = Err e /\ failed_with w s' e)).
Proof. intros S w P quality calls data width height c s s' acc r Hw p. apply strict_run; [apply run_encode_strict|exact Hw]. Qed.
Theorem C49_any_writer_image : forall S (w : writer S) P quality calls im s s' acc r, honest w ->
  Forall call_wf calls -> im_wr im -> let p := run_encode_image P quality calls im in
  run_std w p s s' acc r ->
  exists rest, fst (exec p) = acc ++ rest /\
    ((r = snd (exec p) /\ rest = []) \/ (exists e, r = Err e /\ failed_with w s' e)).
Proof. intros S w P quality calls im s s' acc r Hw Hc Him p. apply strict_run; [now apply run_encode_image_strict|exact Hw]. Qed.

(** Short writes and interruptions do not matter: a writer that always takes something in the end receives
    exactly those bytes, with the same outcome, and this is the only possible run. *)
Theorem C49_short_writes : forall S (w : writer S) P quality calls data width height c s, patient w ->
  let p := run_encode P quality calls data width height c in
  exists s', run_std w p s s' (fst (exec p)) (snd (exec p)) /\
    forall s2 acc r, run_std w p s s2 acc r -> s2 = s' /\ acc = fst (exec p) /\ r = snd (exec p).
Proof.
  intros S w P quality calls data width height c s Hw p. destruct (any_run w Hw p s) as (s' & H). exists s'. split; [exact H|].
  intros s2 acc r H2. destruct (run_std_det w p _ _ _ _ H _ _ _ H2) as (-> & -> & ->). auto.
Qed.

(** A Vec<u8>, directly or behind any number of [&mut] (without std): appended to, the same bytes. *)
Theorem C49_vec : forall P quality calls data width height c before,
  let p := run_encode P quality calls data width height c in
  run vec_write_all p before = (before ++ fst (exec p), snd (exec p)) /\
  run (mut_write_all vec_write_all) p before = (before ++ fst (exec p), snd (exec p)).
Proof.
  intros P quality calls data width height c before p.
  assert (G : forall A (q : prog A) b, run vec_write_all q b = (b ++ fst (exec q), snd (exec q))).
  { induction q as [a|e|r|bs k IH]; intros b; cbn [run exec fst snd]; try (now rewrite app_nil_r).
    unfold vec_write_all at 1. rewrite IH. destruct (exec (k None)). cbn [fst snd]. now rewrite app_assoc. }
  split; [apply G|]. exact (G _ p before).
Qed.

(** Any writer behind a [&mut] reference (without std): it gets the same chunks as directly, and its errors end the call
    and are returned. *)
Theorem C49_reference : forall P quality calls data width height c,
  exists chunks : list (list Z),
    concat chunks = fst (exec (run_encode P quality calls data width height c)) /\
    forall S (sink : S -> list Z -> S * option error) (s : S),
      run (mut_write_all sink) (run_encode P quality calls data width height c) s
      = match feed sink s chunks with
        | (s', Some e) => (s', Err e)
        | (s', None) => (s', snd (exec (run_encode P quality calls data width height c)))
        end.
Proof. exact C07_write_failures. Qed.

(** A byte slice of [n] bytes: if the bytes fit they are all there; otherwise the first [n] of them are, and the
    result is the error WriteZero. *)
Lemma slice_honest : honest slice_writer.
Proof. intros [b n] bs s' k E. unfold slice_writer in E. injection E as _ <-. lia. Qed.
Lemma slice_write : forall n b bs, std_write_all slice_writer (b, n) bs
  (b ++ firstn n bs, (n - length bs)%nat) (firstn n bs) (if (length bs <=? n)%nat then Ok tt else Err (SinkError 0)).
Proof.
  intros n b bs. destruct bs as [|x bs].
  { rewrite firstn_nil, app_nil_r, Nat.sub_0_r. constructor. }
  destruct n as [|n].
  { cbn [firstn Nat.sub]. rewrite app_nil_r. apply wa_zero; [discriminate|]. unfold slice_writer. cbn. now rewrite app_nil_r. }
  set (l := x :: bs). assert (Hl : l <> []) by discriminate. assert (L : (1 <= length l)%nat) by (cbn; lia). clearbody l.
  assert (W : slice_writer (b, S n) l = ((b ++ firstn (Nat.min (S n) (length l)) l, (S n - Nat.min (S n) (length l))%nat), Wrote (Nat.min (S n) (length l)))) by reflexivity.
  assert (Em : firstn (Nat.min (S n) (length l)) l = firstn (S n) l).
  { destruct (le_lt_dec (length l) (S n)); [rewrite Nat.min_r by assumption; rewrite firstn_all, firstn_all2 by assumption; reflexivity|].
    rewrite Nat.min_l by lia. reflexivity. }
  rewrite <- (app_nil_r (firstn (S n) l)) at 2. rewrite <- Em at 2. eapply wa_some; [exact Hl|exact W|lia|]. rewrite Em.
  destruct (length l <=? S n)%nat eqn:E.
  - apply Nat.leb_le in E. rewrite Nat.min_r by exact E. rewrite skipn_all. constructor.
  - apply Nat.leb_gt in E. rewrite Nat.min_l by lia. rewrite Nat.sub_diag. replace (S n - length l)%nat with 0%nat by lia.
    apply wa_zero.
    + intros X. apply (f_equal (@length _)) in X. rewrite skipn_length in X. cbn [length] in X. lia.
    + unfold slice_writer. cbn [fst snd Nat.min firstn]. now rewrite app_nil_r.
Qed.
Theorem C49_slice : forall P quality calls data width height c n,
  let p := run_encode P quality calls data width height c in
  exists left, run_std slice_writer p ([], n) (firstn n (fst (exec p)), left) (firstn n (fst (exec p)))
    (if (length (fst (exec p)) <=? n)%nat then snd (exec p) else Err (SinkError 0)).
Proof.
  intros P quality calls data width height c n p.
  assert (G : forall b m, exists left, run_std slice_writer p (b, m) (b ++ firstn m (fst (exec p)), left) (firstn m (fst (exec p)))
    (if (length (fst (exec p)) <=? m)%nat then snd (exec p) else Err (SinkError 0))).
  { pose proof (run_encode_strict P quality calls data width height c) as Hp. fold p in Hp. clearbody p.
    destruct Hp as [Hp|[e ->]].
    2:{ intros b m. exists m. cbn [exec fst snd length]. rewrite firstn_nil, app_nil_r. constructor. }
    induction Hp as [a|r|bs k Hk Hn IH]; intros b m.
    - exists m. cbn [exec fst snd length]. rewrite firstn_nil, app_nil_r. constructor.
    - exists m. cbn [exec fst snd length]. rewrite firstn_nil, app_nil_r. constructor.
    - cbn [exec]. destruct (exec (k None)) as [o x] eqn:Ek. cbn [fst snd] in *. rewrite firstn_app, app_length.
      pose proof (slice_write m b bs) as W. destruct (length bs <=? m)%nat eqn:E.
      + apply Nat.leb_le in E. destruct (IH (b ++ firstn m bs) (m - length bs)%nat) as (left & H). exists left.
        rewrite app_assoc. replace (length bs + length o <=? m)%nat with (length o <=? m - length bs)%nat.
        2:{ destruct (length o <=? m - length bs)%nat eqn:E1, (length bs + length o <=? m)%nat eqn:E2; lia. }
        eapply rs_write; [exact W|exact H].
      + apply Nat.leb_gt in E. assert (Z0 : (m - length bs)%nat = 0%nat) by lia. rewrite Z0 in *. exists 0%nat. cbn [firstn]. rewrite app_nil_r.
        replace (length bs + length o <=? m)%nat with false by lia.
        rewrite <- (app_nil_r (firstn m bs)) at 2. eapply rs_error; [exact W|]. rewrite Hk. constructor. }
  destruct (G [] n) as (left & H). exists left. exact H.
Qed.

(** ** Concrete cases *)
(** A writer that is interrupted every other time and takes one byte at a time is patient; a slice is honest. *)
Definition drip : writer bool := fun s bs => if s then (false, Wrote 1) else (true, Interrupted).
Example drip_patient : patient drip.
Proof.
  intros s bs Hb. assert (N : ready drip bs true).
  { eapply ready_now; [reflexivity|]. destruct bs; [contradiction|]. cbn [length]. lia. }
  destruct s; [exact N|]. eapply ready_later; [reflexivity|exact N].
Qed.
Example slice_case : exists left, run_std slice_writer (run_encode debug64 60 ex_cfg ex_data 3 2 Rgb) ([], 100%nat)
  (firstn 100 (fst (exec (run_encode debug64 60 ex_cfg ex_data 3 2 Rgb))), left)
  (firstn 100 (fst (exec (run_encode debug64 60 ex_cfg ex_data 3 2 Rgb)))) (Err (SinkError 0)).
Proof.
  destruct (C49_slice debug64 60 ex_cfg ex_data 3 2 Rgb 100) as (left & H). exists left.
  assert (E : (length (fst (exec (run_encode debug64 60 ex_cfg ex_data 3 2 Rgb))) <=? 100)%nat = false) by (vm_compute; reflexivity).
  cbv zeta in H. rewrite E in H. exact H.
Qed.
