(** C42: files written through [Encoder::new_file] *)
From Verif Require Import MFile PWr PExec ThmApi SApi ThmRound MApi MEncoder.
From Coq Require Import ZifyBool.

(** ** Specification *)
(** Accepts at least one byte of every write. *)
Definition reliable {D} (dev : device D) : Prop :=
  forall d bs, bs <> [] -> exists d' n, dev d bs = (d', inl n) /\ (1 <= n <= length bs)%nat.
(** Fails every write (a full disk, a closed pipe). *)
Definition broken {D} (dev : device D) (e : error) : Prop := forall d bs, exists d', dev d bs = (d', inr e).

(** ** Proofs *)
Section Proofs.
  Context {D : Type} (dev : device D).

  Lemma loop_keeps : forall fuel d f rem d' f' rem' r, write_loop dev fuel d f rem = (d', f', rem', r) ->
    f ++ rem = f' ++ rem' /\ (r = None -> rem' = []) /\ exists more, f' = f ++ more.
  Proof.
    induction fuel as [|fuel IH]; intros d f rem d' f' rem' r.
    - destruct rem as [|x rem]; cbn [write_loop]; intros [= <- <- <- <-]; (split; [reflexivity|split; [discriminate || reflexivity|exists []; now rewrite app_nil_r]]).
    - destruct rem as [|x rem]; cbn [write_loop].
      { intros [= <- <- <- <-]. split; [reflexivity|split; [reflexivity|exists []; now rewrite app_nil_r]]. }
      destruct (dev d (x :: rem)) as [d1 [[|n]|e]].
      + intros [= <- <- <- <-]. split; [reflexivity|split; [discriminate|exists []; now rewrite app_nil_r]].
      + intros H. apply IH in H as (H1 & H2 & more & H3). split; [|split; [exact H2|]].
        * rewrite <- H1, <- app_assoc. f_equal. symmetry. apply firstn_skipn.
        * rewrite H3, <- app_assoc. eexists. reflexivity.
      + intros [= <- <- <- <-]. split; [reflexivity|split; [discriminate|exists []; now rewrite app_nil_r]].
  Qed.
  Lemma loop_reliable : reliable dev -> forall fuel d f rem, (length rem <= fuel)%nat ->
    exists d', write_loop dev fuel d f rem = (d', f ++ rem, [], None).
  Proof.
    intros Hr. induction fuel as [|fuel IH]; intros d f rem Hl.
    - destruct rem; [|cbn in Hl; lia]. exists d. cbn [write_loop]. now rewrite app_nil_r.
    - destruct rem as [|x rem]; [exists d; cbn [write_loop]; now rewrite app_nil_r|]. cbn [write_loop].
      destruct (Hr d (x :: rem) ltac:(discriminate)) as (d1 & n & E & Hn). rewrite E.
      destruct n as [|n]; [lia|].
      destruct (IH d1 (f ++ firstn (S n) (x :: rem)) (skipn (S n) (x :: rem))) as (d' & E').
      { rewrite skipn_length. lia. }
      exists d'. rewrite E', <- app_assoc, firstn_skipn. reflexivity.
  Qed.
  Lemma loop_broken e : broken dev e -> forall fuel d f rem, rem <> [] -> (length rem <= fuel)%nat ->
    exists d', write_loop dev fuel d f rem = (d', f, rem, Some e).
  Proof.
    intros Hb fuel d f rem Hn Hl. destruct rem as [|x rem]; [congruence|]. destruct fuel as [|fuel]; [cbn in Hl; lia|].
    cbn [write_loop]. destruct (Hb d (x :: rem)) as (d' & E). rewrite E. eexists. reflexivity.
  Qed.

  Definition blen (st : file_state D) : Z := Z.of_nat (length (f_buf st)).
  Definition all_of (st : file_state D) : list Z := f_file st ++ f_buf st.

  Lemma flush_keeps st st' r : flush_buf dev st = (st', r) -> all_of st' = all_of st /\ (r = None -> f_buf st' = []) /\ blen st' <= blen st.
  Proof.
    unfold flush_buf. destruct (write_loop _ _ _ _ _) as [[[d f] rem] r0] eqn:E. intros [= <- <-].
    apply loop_keeps in E as (H1 & H2 & more & H3). unfold all_of, blen. cbn [f_file f_buf]. split; [now symmetry|split; [exact H2|]].
    rewrite H3, <- app_assoc in H1. apply app_inv_head in H1. rewrite H1, app_length. lia.
  Qed.

  Lemma write_keeps st bs st' r : blen st <= BUF_CAPACITY -> buf_write_all dev st bs = (st', r) ->
    exists rest, all_of st ++ bs = all_of st' ++ rest /\ blen st' <= BUF_CAPACITY /\ (r = None -> rest = []).
  Proof.
    intros Hb. unfold buf_write_all. fold (blen st). destruct (_ <? _) eqn:E1.
    { intros [= <- <-]. exists []. unfold all_of, push, blen in *. cbn [f_file f_buf]. rewrite app_nil_r, <- app_assoc, app_length.
      split; [reflexivity|split; [lia|reflexivity]]. }
    destruct (if BUF_CAPACITY - blen st <? Z.of_nat (length bs) then flush_buf dev st else (st, None)) as [st1 r1] eqn:E2.
    assert (H1 : all_of st1 = all_of st /\ blen st1 <= blen st /\ (r1 = None -> BUF_CAPACITY <= Z.of_nat (length bs) -> f_buf st1 = []) /\
                 (r1 = None -> Z.of_nat (length bs) < BUF_CAPACITY -> blen st1 + Z.of_nat (length bs) <= BUF_CAPACITY)).
    { destruct (_ <? Z.of_nat (length bs)) eqn:E3.
      - apply flush_keeps in E2 as (A & B & C). split; [exact A|split; [exact C|split; [auto|]]].
        intros Hr Hl. unfold blen at 1. rewrite (B Hr). cbn [length]. lia.
      - injection E2 as <- <-. split; [reflexivity|split; [lia|split; [|lia]]]. intros _ Hl.
        unfold blen in *. apply length_zero_iff_nil. lia. }
    destruct H1 as (A & B & C & C'). destruct r1 as [e|].
    { intros [= <- <-]. exists bs. rewrite A. split; [reflexivity|split; [lia|discriminate]]. }
    destruct (BUF_CAPACITY <=? Z.of_nat (length bs)) eqn:E4.
    - destruct (write_loop dev (length bs) (f_dev st1) (f_file st1) bs) as [[[d f] rem] r2] eqn:E5. intros [= <- <-].
      apply loop_keeps in E5 as (H1 & H2 & _). exists rem. unfold all_of in *. cbn [f_file f_buf].
      rewrite (C eq_refl) in A |- * by lia. rewrite app_nil_r in A |- *. rewrite <- A. split; [exact H1|]. split; [unfold blen, BUF_CAPACITY; cbn; lia|exact H2].
    - intros [= <- <-]. exists []. specialize (C' eq_refl ltac:(lia)). unfold all_of, push, blen in *. cbn [f_file f_buf].
      rewrite app_nil_r, app_assoc, A, app_length. split; [reflexivity|split; [lia|reflexivity]].
  Qed.

  Lemma feed_keeps : forall chunks st st' r, blen st <= BUF_CAPACITY -> feed (buf_write_all dev) st chunks = (st', r) ->
    exists rest, all_of st ++ concat chunks = all_of st' ++ rest /\ blen st' <= BUF_CAPACITY /\ (r = None -> rest = []).
  Proof.
    induction chunks as [|b chunks IH]; intros st st' r Hb; cbn [feed concat].
    - intros [= <- <-]. exists []. split; [reflexivity|split; [exact Hb|reflexivity]].
    - destruct (buf_write_all dev st b) as [st1 [e|]] eqn:E; apply write_keeps in E as (rest & H1 & H2 & H3); try exact Hb.
      + intros [= <- <-]. exists (rest ++ concat chunks). rewrite !app_assoc, H1. split; [reflexivity|split; [exact H2|discriminate]].
      + intros H. apply IH in H as (rest' & G1 & G2 & G3); [|exact H2]. rewrite (H3 eq_refl), app_nil_r in H1.
        exists rest'. rewrite app_assoc, H1. split; [exact G1|split; [exact G2|exact G3]].
  Qed.

  Lemma write_reliable : reliable dev -> forall st bs, blen st <= BUF_CAPACITY -> exists st', buf_write_all dev st bs = (st', None).
  Proof.
    intros Hr st bs Hb. unfold buf_write_all. destruct (_ <? _); [eexists; reflexivity|].
    assert (F : exists st1, (if BUF_CAPACITY - Z.of_nat (length (f_buf st)) <? Z.of_nat (length bs) then flush_buf dev st else (st, None)) = (st1, None)).
    { destruct (_ <? _); [|eexists; reflexivity]. unfold flush_buf.
      destruct (loop_reliable Hr (length (f_buf st)) (f_dev st) (f_file st) (f_buf st) (le_n _)) as (d' & ->). eexists; reflexivity. }
    destruct F as (st1 & ->). destruct (_ <=? _); [|eexists; reflexivity].
    destruct (loop_reliable Hr (length bs) (f_dev st1) (f_file st1) bs (le_n _)) as (d' & ->). eexists; reflexivity.
  Qed.
  Lemma feed_reliable : reliable dev -> forall chunks st, blen st <= BUF_CAPACITY ->
    exists st', feed (buf_write_all dev) st chunks = (st', None).
  Proof.
    intros Hr. induction chunks as [|b chunks IH]; intros st Hb; cbn [feed]; [eexists; reflexivity|].
    destruct (write_reliable Hr st b Hb) as (st1 & E). rewrite E.
    apply write_keeps in E as (rest & _ & H2 & _); [|exact Hb]. apply IH, H2.
  Qed.

  Lemma feed_small : forall chunks st, blen st + Z.of_nat (length (concat chunks)) < BUF_CAPACITY ->
    exists st', feed (buf_write_all dev) st chunks = (st', None) /\ f_file st' = f_file st /\ f_buf st' = f_buf st ++ concat chunks.
  Proof.
    induction chunks as [|b chunks IH]; intros st Hl; cbn [feed concat] in *.
    - exists st. rewrite app_nil_r. split; [reflexivity|split; reflexivity].
    - rewrite app_length in Hl. unfold buf_write_all. fold (blen st).
      replace (Z.of_nat (length b) <? BUF_CAPACITY - blen st) with true by lia.
      destruct (IH (push st b)) as (st' & E & E1 & E2).
      { unfold push, blen in *. cbn [f_buf]. rewrite app_length. lia. }
      exists st'. split; [exact E|]. split; [exact E1|]. rewrite E2. unfold push. cbn [f_buf]. now rewrite <- app_assoc.
  Qed.
  Lemma feed_broken e : broken dev e -> forall chunks st, f_file st = [] ->
    exists st' r, feed (buf_write_all dev) st chunks = (st', r) /\ f_file st' = [] /\
      (r = None \/ r = Some e) /\ (r = None -> blen st' = blen st + Z.of_nat (length (concat chunks))).
  Proof.
    intros Hb. induction chunks as [|b chunks IH]; intros st Hf; cbn [feed concat].
    - exists st, None. split; [reflexivity|]. split; [exact Hf|]. split; [now left|]. intros _. cbn [length]. lia.
    - assert (G : exists st1 r1, buf_write_all dev st b = (st1, r1) /\ f_file st1 = [] /\ (r1 = None \/ r1 = Some e) /\
                    (r1 = None -> blen st1 = blen st + Z.of_nat (length b))).
      { unfold buf_write_all. fold (blen st). destruct (Z.of_nat (length b) <? BUF_CAPACITY - blen st).
        { eexists _, _. split; [reflexivity|]. split; [exact Hf|]. split; [now left|]. intros _. unfold blen, push. cbn [f_buf]. rewrite app_length. lia. }
        destruct (BUF_CAPACITY - blen st <? Z.of_nat (length b)) eqn:E3.
        - unfold flush_buf. destruct (f_buf st) as [|x bf] eqn:Eb.
          + cbn [length write_loop]. destruct (BUF_CAPACITY <=? Z.of_nat (length b)) eqn:E4.
            * cbn [f_dev f_file f_buf]. destruct (loop_broken e Hb (length b) (f_dev st) (f_file st) b) as (d' & ->).
              { destruct b; [cbn in E4; discriminate|discriminate]. } { apply le_n. }
              eexists _, _. split; [reflexivity|]. split; [exact Hf|]. split; [now right|discriminate].
            * eexists _, _. split; [reflexivity|]. split; [exact Hf|]. split; [now left|]. intros _. unfold blen, push. cbn [f_buf app]. rewrite Eb. cbn [length]. lia.
          + destruct (loop_broken e Hb (length (x :: bf)) (f_dev st) (f_file st) (x :: bf) ltac:(discriminate) (le_n _)) as (d' & ->).
            eexists _, _. split; [reflexivity|]. split; [exact Hf|]. split; [now right|discriminate].
        - destruct (BUF_CAPACITY <=? Z.of_nat (length b)) eqn:E4.
          + destruct (loop_broken e Hb (length b) (f_dev st) (f_file st) b) as (d' & ->).
            { destruct b; [cbn in E4; discriminate|discriminate]. } { apply le_n. }
            eexists _, _. split; [reflexivity|]. split; [exact Hf|]. split; [now right|discriminate].
          + eexists _, _. split; [reflexivity|]. split; [exact Hf|]. split; [now left|]. intros _. unfold blen, push. cbn [f_buf]. rewrite app_length. lia. }
      destruct G as (st1 & r1 & E & F1 & [-> | ->] & L); rewrite E.
      + destruct (IH st1 F1) as (st' & r & E' & F' & R' & L'). exists st', r. split; [exact E'|]. split; [exact F'|]. split; [exact R'|].
        intros Hr. rewrite (L' Hr), (L eq_refl), app_length. lia.
      + exists st1, (Some e). split; [reflexivity|]. split; [exact F1|]. split; [now right|discriminate].
  Qed.
End Proofs.

(** What [C07_write_failures] says of a program. *)
Definition faithful {A} (p : prog A) : Prop := exists chunks : list (list Z),
  concat chunks = fst (exec p) /\
  forall S (sink : S -> list Z -> S * option error) (s : S),
    run sink p s = match feed sink s chunks with
                   | (s', Some e) => (s', Err e)
                   | (s', None) => (s', snd (exec p))
                   end.

Section Through.
  Context {A : Type} (p : prog A) (Hp : faithful p).

  Lemma file_complete {D} (dev : device D) d : reliable dev ->
    exists d', through_file dev p d = ({| f_dev := d'; f_file := fst (exec p); f_buf := [] |}, snd (exec p), None).
  Proof.
    intros Hr. destruct Hp as (chunks & Hc & Hrun). unfold through_file. rewrite Hrun.
    destruct (feed_reliable dev Hr chunks {| f_dev := d; f_file := []; f_buf := [] |}) as (st & E); [unfold blen, BUF_CAPACITY; cbn; lia|].
    rewrite E. apply feed_keeps in E as (rest & H1 & H2 & H3); [|unfold blen, BUF_CAPACITY; cbn; lia].
    rewrite (H3 eq_refl), app_nil_r in H1. cbn in H1. unfold flush_buf.
    destruct (loop_reliable dev Hr (length (f_buf st)) (f_dev st) (f_file st) (f_buf st) (le_n _)) as (d' & ->).
    exists d'. unfold all_of in H1. rewrite <- H1, Hc. reflexivity.
  Qed.

  Lemma file_prefix {D} (dev : device D) d st r lost : through_file dev p d = (st, r, lost) ->
    exists missing, fst (exec p) = f_file st ++ missing /\
      ((exists e, r = Err e) \/
       r = snd (exec p) /\ Z.of_nat (length missing) <= 8192 /\ (lost = None -> missing = [])).
  Proof.
    destruct Hp as (chunks & Hc & Hrun). unfold through_file. rewrite Hrun.
    destruct (feed (buf_write_all dev) {| f_dev := d; f_file := []; f_buf := [] |} chunks) as [st1 r1] eqn:E.
    apply feed_keeps in E as (rest & H1 & H2 & H3); [|unfold blen, BUF_CAPACITY; cbn; lia]. cbn [all_of f_file f_buf app] in H1.
    rewrite Hc in H1.
    assert (Er : (match r1 with Some e => (st1, Err e) | None => (st1, snd (exec p)) end) = (st1, match r1 with Some e => Err e | None => snd (exec p) end))
      by (destruct r1; reflexivity). rewrite Er.
    destruct (flush_buf dev st1) as [st2 l2] eqn:E2. intros [= <- <- <-].
    apply flush_keeps in E2 as (G1 & G2 & G3). exists (f_buf st2 ++ rest).
    split. { rewrite H1, <- G1. unfold all_of. now rewrite <- app_assoc. }
    destruct r1 as [e|]; [left; eexists; reflexivity|right]. rewrite (H3 eq_refl), app_nil_r.
    split; [reflexivity|]. unfold blen, BUF_CAPACITY in *. split; [lia|exact G2].
  Qed.

  Lemma file_lost {D} (dev : device D) e d : broken dev e -> Z.of_nat (length (fst (exec p))) < 8192 ->
    exists st lost, through_file dev p d = (st, snd (exec p), lost) /\ f_file st = [].
  Proof.
    intros Hb Hl. destruct Hp as (chunks & Hc & Hrun). unfold through_file. rewrite Hrun.
    destruct (feed_small dev chunks {| f_dev := d; f_file := []; f_buf := [] |}) as (st & E & E1 & E2).
    { rewrite Hc. unfold blen, BUF_CAPACITY. cbn. lia. }
    rewrite E. unfold flush_buf. destruct (f_buf st) as [|x bf] eqn:Eb.
    - cbn [length write_loop]. eexists _, _. split; [reflexivity|exact E1].
    - destruct (loop_broken dev e Hb (length (x :: bf)) (f_dev st) (f_file st) (x :: bf) ltac:(discriminate) (le_n _)) as (d' & ->).
      eexists _, _. split; [reflexivity|exact E1].
  Qed.
  Lemma file_detected {D} (dev : device D) e d : broken dev e -> 8192 < Z.of_nat (length (fst (exec p))) ->
    exists st lost, through_file dev p d = (st, Err e, lost) /\ f_file st = [].
  Proof.
    intros Hb Hl. destruct Hp as (chunks & Hc & Hrun). unfold through_file. rewrite Hrun.
    destruct (feed_broken dev e Hb chunks {| f_dev := d; f_file := []; f_buf := [] |} eq_refl) as (st & r & E & F & R & L).
    pose proof E as E'. apply feed_keeps in E' as (rest & _ & H2 & _); [|unfold blen, BUF_CAPACITY; cbn; lia]. rewrite E.
    destruct R as [-> | ->].
    { specialize (L eq_refl). rewrite Hc in L. unfold blen at 2 in L. cbn [f_buf length] in L. unfold BUF_CAPACITY in H2. lia. }
    unfold flush_buf. destruct (f_buf st) as [|x bf] eqn:Eb.
    - cbn [length write_loop]. eexists _, _. split; [reflexivity|exact F].
    - destruct (loop_broken dev e Hb (length (x :: bf)) (f_dev st) (f_file st) (x :: bf) ltac:(discriminate) (le_n _)) as (d' & ->).
      eexists _, _. split; [reflexivity|exact F].
  Qed.
End Through.

Lemma encode_faithful P quality calls data w h c : faithful (run_encode P quality calls data w h c).
Proof. apply C07_write_failures. Qed.

(** ** Theorems *)
(** On a device that makes progress on every write (in pieces of any size) the file holds exactly the bytes
    that the encoder produces for a [Vec<u8>], with the same outcome, and nothing is lost. *)
Theorem C42_complete : forall D (dev : device D) d P quality calls data w h c, reliable dev ->
  exists d', through_file dev (run_encode P quality calls data w h c) d
    = ({| f_dev := d'; f_file := fst (exec (run_encode P quality calls data w h c)); f_buf := [] |},
       snd (exec (run_encode P quality calls data w h c)), None).
Proof. intros. now apply file_complete; [apply encode_faithful|]. Qed.

(** On any device the file holds a beginning of these bytes; if [encode] does not return an error, at most the
    last 8192 bytes are missing, and none if the flush in [Drop], whose result is ignored, succeeded. *)
Theorem C42_prefix : forall D (dev : device D) d P quality calls data w h c st r lost,
  through_file dev (run_encode P quality calls data w h c) d = (st, r, lost) ->
  exists missing, fst (exec (run_encode P quality calls data w h c)) = f_file st ++ missing /\
    ((exists e, r = Err e) \/
     r = snd (exec (run_encode P quality calls data w h c)) /\ Z.of_nat (length missing) <= 8192 /\
     (lost = None -> missing = [])).
Proof. intros D dev d P quality calls data w h c st r lost. apply file_prefix, encode_faithful. Qed.

(** "If encode returns Ok, the file is complete" does not hold: on a device that fails every write, [encode]
    returns [Ok] for every image whose JPEG is smaller than 8192 bytes, and the file is empty ... *)
Theorem C42_violated : forall D (dev : device D) e d P quality calls data w h c, broken dev e ->
  Z.of_nat (length (fst (exec (run_encode P quality calls data w h c)))) < 8192 ->
  exists st lost, through_file dev (run_encode P quality calls data w h c) d
    = (st, snd (exec (run_encode P quality calls data w h c)), lost) /\ f_file st = [].
Proof. intros D dev e d P quality calls data w h c. apply file_lost, encode_faithful. Qed.
(** ... whereas for larger outputs the failure is reported. *)
Theorem C42_detected : forall D (dev : device D) e d P quality calls data w h c, broken dev e ->
  8192 < Z.of_nat (length (fst (exec (run_encode P quality calls data w h c)))) ->
  exists st lost, through_file dev (run_encode P quality calls data w h c) d = (st, Err e, lost) /\ f_file st = [].
Proof. intros D dev e d P quality calls data w h c. apply file_detected, encode_faithful. Qed.

(** The same for user-supplied image buffers. *)
Theorem C42_image : forall D (dev : device D) d P quality calls im st r lost, Forall call_wf calls -> im_wr im ->
  through_file dev (run_encode_image P quality calls im) d = (st, r, lost) ->
  (exists missing, fst (exec (run_encode_image P quality calls im)) = f_file st ++ missing /\
    ((exists e, r = Err e) \/
     r = snd (exec (run_encode_image P quality calls im)) /\ Z.of_nat (length missing) <= 8192 /\
     (lost = None -> missing = []))) /\
  (reliable dev -> f_file st = fst (exec (run_encode_image P quality calls im)) /\
     r = snd (exec (run_encode_image P quality calls im)) /\ lost = None).
Proof.
  intros D dev d P quality calls im st r lost Hc Hw E.
  assert (Hp : faithful (run_encode_image P quality calls im)) by now apply C07_write_failures_image.
  split; [exact (file_prefix _ Hp dev d st r lost E)|].
  intros Hr. destruct (file_complete _ Hp dev d Hr) as (d' & E'). rewrite E in E'. clear E Hp. revert E'.
  generalize (exec (run_encode_image P quality calls im)). intros x E'. injection E' as -> -> ->.
  split; [reflexivity|split; reflexivity].
Qed.

(** Concrete cases: a 3 x 2 image through a full disk; a device that takes one byte at a time is reliable. *)
Definition full_disk : device unit := fun d _ => (d, inr (SinkError 28)).
Definition bytewise : device unit := fun d bs => (d, inl (Nat.min 1 (length bs))).
Example full_disk_broken : broken full_disk (SinkError 28). Proof. intros d bs. eexists. reflexivity. Qed.
Example bytewise_reliable : reliable bytewise.
Proof. intros d bs Hb. exists d, (Nat.min 1 (length bs)). split; [reflexivity|]. destruct bs; [congruence|cbn; lia]. Qed.
Example C42_example_lost :
  snd (fst (through_file full_disk (run_encode debug64 75 ex_cfg ex_data 3 2 Rgb) tt)) = Ok tt /\
  f_file (fst (fst (through_file full_disk (run_encode debug64 75 ex_cfg ex_data 3 2 Rgb) tt))) = [].
Proof.
  destruct (C42_violated _ full_disk (SinkError 28) tt debug64 75 ex_cfg ex_data 3 2 Rgb full_disk_broken) as (st & lost & E & F).
  - vm_compute. reflexivity.
  - rewrite E. split; [vm_compute; reflexivity|exact F].
Qed.
