(** C60: image buffers with internal state. *)
From Verif Require Import SSource SOutcome SRows PSource PSafe PSafeEnc PRound PApi MAvx2 ThmApi ThmRound ThmBytes ThmBuffer ThmAll ThmOutcome ThmAvx2.
From Coq Require Import ZArith List Bool Lia ZifyBool ZifyNat.
Import ListNotations.
Open Scope Z_scope.

Lemma run_source_eq P quality calls src s : Forall call_wf calls ->
  run_encode_source P quality calls src s = src_internal P default_operations src (enc_of (settings_of quality calls)) s.
Proof. intros Hc. unfold run_encode_source. rewrite build_ret by assumption. reflexivity. Qed.
Lemma run_source_avx2_eq P quality calls src s : Forall call_wf calls ->
  run_encode_source_avx2 P quality calls src s = src_internal P avx2_operations src (enc_of (settings_of quality calls)) s.
Proof. intros Hc. unfold run_encode_source_avx2. rewrite build_ret by assumption. reflexivity. Qed.
Lemma run_image_avx2_eq P quality calls im : Forall call_wf calls ->
  run_encode_image_avx2 P quality calls im = encode_image_internal P avx2_operations (enc_of (settings_of quality calls)) im.
Proof. intros Hc. unfold run_encode_image_avx2. rewrite build_ret by assumption. reflexivity. Qed.

(** ** Nothing is lost
    A buffer that keeps no state is the special case that the other theorems about encode_image speak of: the same
    writes, the same outcome, whatever the writer does. *)
Lemma stateless_core P op e im s : e_components e = [] -> 0 <= im_height im -> rel eq (encode_image_internal P op e im) (src_internal P op (stateless im) e s).
Proof.
  intros He Hh. apply (rel_internal P op (stateless im) im e s (fun _ => True) (fun _ _ => True)); auto.
  - intros _ t _. exists t. auto.
  - intros _ t _. exists t. auto.
  - intros _ t _. exists t. auto.
  - intros y _ t bs _ _. cbn [stateless so_fill]. generalize (im_fill im y bs). intros m. induction m; cbn [bind]; constructor; auto.
Qed.
Theorem C60_stateless : forall P quality calls im W (w : W -> list Z -> W * option error) st s, Forall call_wf calls -> 0 <= im_height im ->
  run w (run_encode_source P quality calls (stateless im) s) st = run w (run_encode_image P quality calls im) st.
Proof.
  intros P quality calls im W w st s Hc Hh. rewrite run_source_eq, run_encode_image_eq by assumption. symmetry. apply rel_run.
  apply stateless_core; [reflexivity|exact Hh].
Qed.
Theorem C60_stateless_simd : forall P quality calls im W (w : W -> list Z -> W * option error) st s, Forall call_wf calls -> 0 <= im_height im ->
  run w (run_encode_source_avx2 P quality calls (stateless im) s) st = run w (run_encode_image_avx2 P quality calls im) st.
Proof.
  intros P quality calls im W w st s Hc Hh. rewrite run_source_avx2_eq, run_image_avx2_eq by assumption. symmetry. apply rel_run.
  apply stateless_core; [reflexivity|exact Hh].
Qed.

(** ** What can go wrong
    Whatever the buffer answers, also when its answers change from call to call: encoding comes to an end, and
    panics only as it may for any call, or because a method of the buffer panics. *)
Lemma quiet_safe {A} (R : panic_reason -> Prop) (m : prog A) : quiet m -> (forall r, m = Panic r -> R r) -> safe R (fun _ => True) m.
Proof. intros [[a ->]|[r ->]] H; constructor; auto. Qed.
Lemma panics_core P op quality calls src s : plat_ok P -> Forall call_wf calls -> quiet_source src ->
  (forall b, safe (fun r => checked_panic P r \/ own_panic src r) (fun _ => True) (op_fdct op P b)) ->
  safe (fun r => checked_panic P r \/ own_panic src r) (fun _ => True) (src_internal P op src (enc_of (settings_of quality calls)) s).
Proof.
  intros HP Hc [Qc Qw Qh Qf] Hop. apply safe_src_internal; try assumption.
  - left. now left.
  - intros D. left. right. split; [exact D|now left].
  - intros D. left. right. split; [exact D|now right].
  - intros t. apply quiet_safe; [apply Qc|]. intros r E. right. exists t. auto.
  - intros t. apply quiet_safe; [apply Qw|]. intros r E. right. exists t. auto.
  - intros t. apply quiet_safe; [apply Qh|]. intros r E. right. exists t. auto.
  - intros y b t. apply quiet_safe; [apply Qf|]. intros r E. right. exists t. right. right. right. eauto.
  - exact (sw_scans _ (settings_of_wf quality calls Hc)).
  - exact std_huff_tok.
  - reflexivity.
Qed.
Theorem C60_panics : forall P quality calls src s r, plat_ok P -> Forall call_wf calls -> quiet_source src ->
  may_panic (run_encode_source P quality calls src s) r -> checked_panic P r \/ own_panic src r.
Proof.
  intros P quality calls src s r HP Hc Q. rewrite run_source_eq by exact Hc. revert r. eapply safe_may_panic.
  apply panics_core; try assumption. intros b. apply default_safe. intros r H. now left.
Qed.
Theorem C60_panics_simd : forall P quality calls src s r, plat_ok P -> Forall call_wf calls -> quiet_source src ->
  may_panic (run_encode_source_avx2 P quality calls src s) r -> checked_panic P r \/ own_panic src r.
Proof.
  intros P quality calls src s r HP Hc Q. rewrite run_source_avx2_eq by exact Hc. revert r. eapply safe_may_panic.
  apply panics_core; try assumption. intros b. constructor. exact I.
Qed.

(** ** Write errors are returned at once *)
Lemma quiet_wr {A} (m : prog A) : quiet m -> wr m.
Proof. intros [[a ->]|[r ->]]; constructor. Qed.
Lemma avx2_op_wr : op_wr avx2_operations.
Proof. intros P b. constructor. Qed.
Lemma strict_source P op (Hop : op_wr op) src (Q : quiet_source src) e s :
  wr (src_internal P op src e s) \/ exists err, src_internal P op src e s = Throw err.
Proof.
  destruct Q as [Qc Qw Qh Qf]. unfold src_internal, src_is_empty.
  assert (Rest : forall s, wr (
      let* t0 := index (e_qtypes e) 0 in
      let* q0 := new_with_quality t0 (e_quality e) true in
      let* t1 := index (e_qtypes e) 1 in
      let* q1 := new_with_quality t1 (e_quality e) false in
      let* '(color, s) := so_color src s in
      let cs := e_components e ++ init_components (e_sampling e) color in
      write_marker SOI ;;;
      write_header (e_density e) ;;;
      (match color with
       | JCmyk => write_segment P (APP 14) ADOBE_UNKNOWN
       | JYcck => write_segment P (APP 14) ADOBE_YCCK
       | _ => Ret tt
       end) ;;;
      foldM (fun _ '(nr, data) => write_segment P (APP nr) data) (e_segments e) tt ;;;
      let w := bitw_new P in
      let* _ :=
        match e_prog e with
        | Some scans => src_progressive P op src e scans cs q0 q1 w s
        | None =>
          if e_optimize e || negb (supports_interleaved (e_sampling e))
          then src_sequential P op src e cs q0 q1 w s
          else src_interleaved P op src e cs q0 q1 w s
        end in
      write_marker EOI)).
  { intros t. assert (Wc : forall s, wr (so_color src s)) by (intros; apply quiet_wr, Qc). assert (Ww : forall s, wr (so_width src s)) by (intros; apply quiet_wr, Qw).
    assert (Wh : forall s, wr (so_height src s)) by (intros; apply quiet_wr, Qh). assert (Wf : forall y b s, wr (so_fill src y b s)) by (intros; apply quiet_wr, Qf).
    pose proof (wr_src_interleaved op Hop src Wc Ww Wh Wf) as W1. pose proof (wr_src_sequential op Hop src Wc Ww Wh Wf) as W2.
    pose proof (wr_src_progressive op Hop src Wc Ww Wh Wf) as W3. clear - Wc W1 W2 W3.
    do 4 (apply wr_bind; [first [apply wr_index|apply wr_new_with_quality]|intros ?]). apply wr_bind; [apply Wc|intros [color t1]]. cbv zeta.
    apply wr_bind; [apply wr_marker|intros _]. apply wr_bind; [apply wr_header|intros _].
    apply wr_bind; [destruct color; first [apply wr_segment|apply wr_ret]|intros _].
    apply wr_bind; [apply wr_foldM; intros _ [nr d]; apply wr_segment|intros _].
    apply wr_bind; [|intros _; apply wr_marker].
    destruct (e_prog e); [apply W3|]. destruct (_ || _); [apply W2|apply W1]. }
  assert (Thr : forall s, wr (let* '(width, s) := so_width src s in let* '(height, _) := so_height src s in @Throw unit (ZeroImageDimensions width height)) \/
                exists err, (let* '(width, s) := so_width src s in let* '(height, _) := so_height src s in @Throw unit (ZeroImageDimensions width height)) = Throw err).
  { intros t. destruct (Qw t) as [[[w t1] E]|[r E]]; rewrite E; cbn [bind]; [|left; constructor].
    destruct (Qh t1) as [[[h t2] E2]|[r E2]]; rewrite E2; cbn [bind]; [right; eauto|left; constructor]. }
  destruct (Qw s) as [[[w t1] E]|[r E]]; rewrite E; cbn [bind]; [|left; constructor].
  destruct (w =? 0); cbn [bind]; [apply Thr|].
  destruct (Qh t1) as [[[h t2] E2]|[r E2]]; rewrite E2; cbn [bind]; [|left; constructor].
  destruct (h =? 0); [apply Thr|]. left. apply Rest.
Qed.
Lemma strict_faithful {A} (p : prog A) : (wr p \/ exists err, p = Throw err) ->
  exists chunks : list (list Z), concat chunks = fst (exec p) /\
    forall S (sink : S -> list Z -> S * option error) (s : S),
      run sink p s = match feed sink s chunks with (s', Some e) => (s', Err e) | (s', None) => (s', snd (exec p)) end.
Proof.
  intros [H|[err ->]].
  - exists (writes p). split; [symmetry; apply wr_concat|]. intros. now apply wr_run.
  - exists []. split; reflexivity.
Qed.
Theorem C60_write_failures : forall P quality calls src s, Forall call_wf calls -> quiet_source src ->
  exists chunks : list (list Z),
    concat chunks = fst (exec (run_encode_source P quality calls src s)) /\
    forall W (sink : W -> list Z -> W * option error) (w : W),
      run sink (run_encode_source P quality calls src s) w
      = match feed sink w chunks with
        | (w', Some e) => (w', Err e)
        | (w', None) => (w', snd (exec (run_encode_source P quality calls src s)))
        end.
Proof.
  intros P quality calls src s Hc Q. rewrite run_source_eq by exact Hc. apply strict_faithful. apply strict_source; [apply default_op_wr|exact Q].
Qed.
Theorem C60_write_failures_simd : forall P quality calls src s, Forall call_wf calls -> quiet_source src ->
  exists chunks : list (list Z),
    concat chunks = fst (exec (run_encode_source_avx2 P quality calls src s)) /\
    forall W (sink : W -> list Z -> W * option error) (w : W),
      run sink (run_encode_source_avx2 P quality calls src s) w
      = match feed sink w chunks with
        | (w', Some e) => (w', Err e)
        | (w', None) => (w', snd (exec (run_encode_source_avx2 P quality calls src s)))
        end.
Proof.
  intros P quality calls src s Hc Q. rewrite run_source_avx2_eq by exact Hc. apply strict_faithful. apply strict_source; [apply avx2_op_wr|exact Q].
Qed.

(** ** Streaming
    A buffer that can give the rows of an image once in order, the last one again as often as the padding needs it,
    is encoded to the same bytes as the image. *)
Lemma map_push_length bs : length (map push_last bs) = length bs.
Proof. apply map_length. Qed.
Lemma pad_row_4 w bw bs : length bs = 4%nat -> length (pad_row w bw bs) = 4%nat.
Proof.
  unfold pad_row. revert bs. induction (zseg w bw) as [|x l IH]; intros bs H; cbn [fold_left]; [exact H|]. apply IH. now rewrite map_push_length.
Qed.
Lemma streaming_core P op quality calls src s im : 0 <= im_height im ->
  serves src s im (row_order (settings_of quality calls) (im_color im) (im_width im) (im_height im)) ->
  rel eq (encode_image_internal P op (enc_of (settings_of quality calls)) im) (src_internal P op src (enc_of (settings_of quality calls)) s).
Proof.
  intros Hh (Ready & H0 & Rc & Rw & Rh & Rf). apply (rel_internal P op src im _ s (fun bs => length bs = 4%nat) Ready); auto.
  - intros. now apply pad_row_4.
  - intros y todo t bs H L. destruct (Rf y todo t bs H L) as (bs' & t' & E & L' & E' & H'). rewrite E, E'. constructor. cbn [fst snd]. auto.
  - cbv zeta. change (e_sampling (enc_of (settings_of quality calls))) with (s_sampling (settings_of quality calls)).
    now rewrite <- (row_order_eq (settings_of quality calls) (im_color im) (im_width im)).
Qed.
Theorem C60_streaming : forall P quality calls src s im W (w : W -> list Z -> W * option error) st, Forall call_wf calls -> 0 <= im_height im ->
  serves src s im (row_order (settings_of quality calls) (im_color im) (im_width im) (im_height im)) ->
  run w (run_encode_source P quality calls src s) st = run w (run_encode_image P quality calls im) st.
Proof.
  intros P quality calls src s im W w st Hc Hh H. rewrite run_source_eq, run_encode_image_eq by assumption. symmetry. apply rel_run.
  now apply streaming_core.
Qed.
Theorem C60_streaming_simd : forall P quality calls src s im W (w : W -> list Z -> W * option error) st, Forall call_wf calls -> 0 <= im_height im ->
  serves src s im (row_order (settings_of quality calls) (im_color im) (im_width im) (im_height im)) ->
  run w (run_encode_source_avx2 P quality calls src s) st = run w (run_encode_image_avx2 P quality calls im) st.
Proof.
  intros P quality calls src s im W w st Hc Hh H. rewrite run_source_avx2_eq, run_image_avx2_eq by assumption. symmetry. apply rel_run.
  now apply streaming_core.
Qed.
(** In particular a buffer that serves the pixels of a valid call writes the file of [encode]. *)
Theorem C60_streaming_pixels : forall P quality calls src s data w h c, Forall call_wf calls -> valid_input P data w h c ->
  serves src s (image_of P data w h c) (row_order (settings_of quality calls) (spec_color c) w h) ->
  exec (run_encode_source P quality calls src s) = exec (run_encode P quality calls data w h c).
Proof.
  intros P quality calls src s data w h c Hc V H. rewrite run_source_eq, (run_encode_eq _ _ _ _ _ _ _ Hc V) by assumption. symmetry. apply rel_exec.
  apply streaming_core; rewrite ?image_of_width, ?image_of_height, ?image_of_color; [pose proof (vi_height _ _ _ _ _ V); lia|exact H].
Qed.

(** A reader with one row of memory serves an image. *)
Fixpoint chain (n last : Z) (todo : list Z) : Prop :=
  match todo with [] => True | y :: t => 0 <= y < n /\ (y = last \/ y = last + 1) /\ chain n y t end.
Lemma order_chain h n : 1 <= h -> forall k, chain h (Z.min (h - 1) (Z.of_nat k - 1)) (map (fun y => Z.min (h - 1) y) (map Z.of_nat (seq k n))).
Proof.
  intros Hh. induction n as [|n IH]; intros k; cbn [seq map chain]; [exact I|]. split; [lia|]. split; [lia|].
  specialize (IH (S k)). replace (Z.of_nat (S k) - 1) with (Z.of_nat k) in IH by lia. exact IH.
Qed.
Lemma combine_length_4 {A B} (a : list A) (b : list B) : length a = 4%nat -> length b = 4%nat -> length (combine a b) = 4%nat.
Proof. intros. rewrite combine_length. lia. Qed.
Theorem C60_reader : forall quality calls color w h rows, 0 <= h -> Z.of_nat (length rows) = h -> Forall (fun r : list (list Z) => length r = 4%nat) rows ->
  serves (reader color w h) (-1, [], rows) (rows_image color w h rows) (row_order (settings_of quality calls) color w h).
Proof.
  intros quality calls color w h rows Hh Hl Hr.
  exists (fun todo (st : Z * list (list Z) * list (list (list Z))) => let '(last, row, rest) := st in
    -1 <= last /\ rest = skipn (Z.to_nat (last + 1)) rows /\ (0 <= last -> row = nth (Z.to_nat last) rows []) /\ chain h last todo).
  split; [|split; [|split; [|split]]].
  - split; [lia|]. split; [reflexivity|]. split; [lia|]. unfold row_order. cbv zeta. destruct (Z.eq_dec h 0) as [->|].
    + pose proof (vmax_pos (settings_of quality calls) color w 0). set (m := 8 * _). assert (8 <= m) by (unfold m; lia). replace ((0 + m - 1) / m) with 0; [exact I|].
      symmetry. apply Z.div_small. lia.
    + replace (-1) with (Z.min (h - 1) (Z.of_nat 0 - 1)) by lia. apply order_chain. lia.
  - intros todo st H. exists st. split; [reflexivity|exact H].
  - intros todo st H. exists st. split; [reflexivity|exact H].
  - intros todo st H. exists st. split; [reflexivity|exact H].
  - intros y todo [[last row] rest] bs (Hla & -> & Hrow & Hy & Hn & Ht) Lb. cbn [reader so_fill rows_image im_fill].
    assert (Lr : length (nth (Z.to_nat y) rows []) = 4%nat).
    { rewrite Forall_forall in Hr. apply Hr. apply nth_In. lia. }
    exists (map (fun '(b, r) => b ++ r) (combine bs (nth (Z.to_nat y) rows []))), (y, nth (Z.to_nat y) rows [], skipn (Z.to_nat (y + 1)) rows).
    split; [reflexivity|]. split; [rewrite map_length; now apply combine_length_4|]. split; [|split; [lia|]; split; [reflexivity|]; split; [reflexivity|exact Ht]].
    destruct Hn as [->| ->].
    + rewrite Z.eqb_refl. rewrite Hrow by lia. reflexivity.
    + replace (last + 1 =? last) with false by lia. rewrite Z.eqb_refl.
      destruct (skipn (Z.to_nat (last + 1)) rows) as [|r rest] eqn:E.
      { apply (f_equal (@length _)) in E. rewrite skipn_length in E. cbn [length] in E. lia. }
      assert (Er : nth (Z.to_nat (last + 1)) rows [] = r).
      { rewrite <- (firstn_skipn (Z.to_nat (last + 1)) rows) at 1. rewrite app_nth2, firstn_length by (rewrite firstn_length; lia). rewrite E.
        replace (Z.to_nat (last + 1) - Nat.min (Z.to_nat (last + 1)) (length rows))%nat with 0%nat by lia. reflexivity. }
      assert (Es : skipn (Z.to_nat (last + 1 + 1)) rows = rest).
      { replace (Z.to_nat (last + 1 + 1)) with (S (Z.to_nat (last + 1))) by lia. clear - E. revert rows E. induction (Z.to_nat (last + 1)) as [|n IH]; intros rows E.
        - cbn in E. subst rows. reflexivity.
        - destruct rows as [|x rows]; [discriminate E|]. cbn in E. now apply IH. }
      rewrite Er, Es. reflexivity.
Qed.

(** Concrete cases: a reader over three rows of two grey samples, which are padded to 8 rows, writes the file of the
    raw pixels; the rows are two samples short of what it declares and the encoder panics for want of samples; and a
    buffer that answers 8 when first asked for the width and one more each time it is asked again: encode_image
    returns Ok, with the frame header of one width and the scan of another. *)
Definition three_rows : list (list (list Z)) := [[[1; 2]; []; []; []]; [[3; 4]; []; []; []]; [[5; 6]; []; []; []]].
Definition growing : source :=
  {| so_state := Z;
     so_color := fun s => Ret (JLuma, s);
     so_width := fun s => Ret (s, s + 1);
     so_height := fun s => Ret (1, s);
     so_fill := fun y bs s => Ret (map (fun b => b ++ repeat 7 16) bs, s) |}.
Example C60_case :
  exec (run_encode_source debug64 50 [] (reader JLuma 2 3) (-1, [], three_rows)) = exec (run_encode debug64 50 [] [1; 2; 3; 4; 5; 6] 2 3 Luma) /\
  snd (exec (run_encode_source debug64 50 [] (reader JLuma 2 3) (-1, [], three_rows))) = Ok tt /\
  snd (exec (run_encode_source debug64 50 [] (reader JLuma 9 3) (-1, [], three_rows))) = Panicked PIndex /\
  snd (exec (run_encode_source debug64 50 [] (reader JLuma 2 4) (-1, [], three_rows))) = Panicked PUnreachable /\
  snd (exec (run_encode_source debug64 50 [] growing 8)) = Ok tt /\
  snd (exec (run_encode_source debug64 50 [] growing 0)) = Err (ZeroImageDimensions 1 1) /\
  quiet_source (reader JLuma 2 3) /\ quiet_source growing.
Proof.
  do 6 (split; [vm_compute; reflexivity|]). split; constructor; intros; try (left; eexists; reflexivity).
  destruct s as [[last row] rest]. cbn [reader so_fill]. destruct (y =? last); [left; eexists; reflexivity|].
  destruct (y =? last + 1); [|right; eexists; reflexivity]. destruct rest; [right|left]; eexists; reflexivity.
Qed.
