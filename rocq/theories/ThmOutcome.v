(** C47: what can happen at all in an encode call, valid or not. *)
From Verif Require Import SOutcome PSafe PForest PSafeEnc PRound PApi MAvx2 SHuff ThmApi ThmHuff ThmRound ThmBytes ThmBuffer ThmAll.
From Coq Require Import ZArith List Bool Lia ZifyBool.
Import ListNotations.
Open Scope Z_scope.

Lemma safe_may_panic {A} (R : panic_reason -> Prop) (Q : A -> Prop) m : safe R Q m -> forall r, may_panic m r -> R r.
Proof.
  intros H r (S & w & s & E). pose proof (safe_run R Q m H S w s) as G. rewrite E in G. exact G.
Qed.
Lemma may_panic_safe {A} (R : panic_reason -> Prop) (m : prog A) : (forall r, may_panic m r -> R r) -> safe R (fun _ => True) m.
Proof.
  induction m as [a|e|r|bs k IH]; intros H.
  - now constructor.
  - constructor.
  - constructor. apply H. exists unit, (fun s _ => (s, None)), tt. reflexivity.
  - constructor. intros o. apply IH. intros r (S & w & s & E). apply H.
    exists (option S), (fun st b => match st with None => (Some s, o) | Some s' => let '(s'', x) := w s' b in (Some s'', x) end), None.
    cbn [run]. assert (G : forall (m : prog A) s', run (fun st b => match st with None => (Some s, o) | Some s' => let '(s'', x) := w s' b in (Some s'', x) end) m (Some s')
      = (Some (fst (run w m s')), snd (run w m s'))).
    { clear. induction m as [a|e|r|bs k IH]; intros s'; try reflexivity. cbn [run]. destruct (w s' bs) as [s'' x]. apply IH. }
    rewrite G. exact E.
Qed.

Lemma std_huff_tok : Forall (fun t => tok (fst t) /\ tok (snd t)) std_huff.
Proof.
  assert (G : forall t, forallb (fun p => (0 <=? fst p) && (fst p <=? 16)) (h_lookup t) = true -> tok t).
  { intros t H. apply Forall_forall. intros p Hp. rewrite forallb_forall in H. specialize (H p Hp). lia. }
  unfold std_huff. constructor; [|constructor; [|constructor]]; (split; apply G; vm_compute; reflexivity).
Qed.

Section Outcome.
  Variable P : platform.
  Variable HP : plat_ok P.
  Variable R : panic_reason -> Prop.
  Variable HR : forall r, checked_panic P r -> R r.

  Lemma image_safe quality calls op im : Forall call_wf calls ->
    (forall b, safe R (fun _ => True) (op_fdct op P b)) -> (forall y b, safe R (fun _ => True) (im_fill im y b)) ->
    safe R (fun _ => True) (encode_image_internal P op (enc_of (settings_of quality calls)) im).
  Proof.
    intros Hc Hop Him. apply safe_internal; try assumption.
    - apply HR. now left.
    - intros D. apply HR. right. split; [exact D|now left].
    - intros D. apply HR. right. split; [exact D|now right].
    - exact (sw_scans _ (settings_of_wf quality calls Hc)).
    - exact std_huff_tok.
    - reflexivity.
  Qed.
  Lemma default_safe b : safe R (fun _ => True) (op_fdct default_operations P b).
  Proof.
    apply safe_fdct.
    - intros D. apply HR. right. split; [exact D|now left].
    - intros D. apply HR. right. split; [exact D|now right].
  Qed.
  Lemma get_line_safe data y w n : safe R (fun _ => True) (get_line P data y w n).
  Proof.
    unfold get_line. do 4 (apply safe_bind_any; [apply safe_ck_usize_any; intros D; apply HR; right; (split; [exact D|tauto])|intros ?]).
    destruct (_ && _); constructor; [exact I|]. apply HR. now left.
  Qed.
  Lemma image_of_safe data w h c y b : safe R (fun _ => True) (im_fill (image_of P data w h c) y b).
  Proof.
    destruct c; cbn [image_of im_fill gray_image rgb_image rgba_image bgr_image bgra_image ycbcr_image ycc_image cmyk_image cmyk_as_ycck_image ycck_image];
      (apply safe_bind_any; [apply get_line_safe|intros l; constructor; exact I]).
  Qed.
  Lemma encode_safe quality calls data w h c : Forall call_wf calls -> safe R (fun _ => True) (run_encode P quality calls data w h c).
  Proof.
    intros Hc. unfold run_encode. rewrite build_ret by assumption. cbn [bind]. unfold encode.
    do 2 (apply safe_bind_any; [apply safe_ck_usize_any; intros D; apply HR; right; (split; [exact D|tauto])|intros ?]).
    destruct (_ <? _); [constructor|]. unfold encode_image. apply image_safe; [exact Hc|exact default_safe|]. intros. apply image_of_safe.
  Qed.
End Outcome.

(** ** C47
    Encoding always comes to an end (the model's loops never run out of fuel, [PFuel]), whatever the pixels,
    the dimensions, the configuration and the writer do; it fails no assert! or unwrap ([PAssert]) and reaches
    no unreachable! ([PUnreachable]).  Only a slice index can be out of bounds and, in checked builds, an
    overflow or debug assertion be detected. *)
Theorem C47_panics : forall P quality calls data w h c r, plat_ok P -> Forall call_wf calls ->
  may_panic (run_encode P quality calls data w h c) r -> checked_panic P r.
Proof.
  intros P quality calls data w h c r HP Hc. revert r. eapply safe_may_panic. apply (encode_safe P HP (checked_panic P)); [trivial|exact Hc].
Qed.
(** Release builds: only the index. *)
Theorem C47_panics_release : forall P quality calls data w h c r, plat_ok P -> dbg P = false -> Forall call_wf calls ->
  may_panic (run_encode P quality calls data w h c) r -> r = PIndex.
Proof.
  intros P quality calls data w h c r HP Hd Hc H. destruct (C47_panics P quality calls data w h c r HP Hc H) as [E|[D _]]; [exact E|congruence].
Qed.
(** [encode_image] with any ImageBuffer adds only the panics of that buffer (whatever else it does: wrong row
    lengths, values, errors). *)
Theorem C47_panics_image : forall P quality calls im r, plat_ok P -> Forall call_wf calls ->
  may_panic (run_encode_image P quality calls im) r ->
  checked_panic P r \/ exists y bufs, may_panic (im_fill im y bufs) r.
Proof.
  intros P quality calls im r HP Hc. rewrite run_encode_image_eq by exact Hc. revert r. eapply safe_may_panic.
  apply image_safe; try assumption.
  - intros r H. now left.
  - apply default_safe. intros r H. now left.
  - intros y b. apply may_panic_safe. intros r H. right. now exists y, b.
Qed.
Theorem C47_panics_image_simd : forall P quality calls im r, plat_ok P -> Forall call_wf calls ->
  may_panic (run_encode_image_avx2 P quality calls im) r ->
  checked_panic P r \/ exists y bufs, may_panic (im_fill im y bufs) r.
Proof.
  intros P quality calls im r HP Hc. unfold run_encode_image_avx2. rewrite build_ret by assumption. cbn [bind]. unfold encode_image_avx2.
  revert r. eapply safe_may_panic. apply image_safe; try assumption.
  - intros r H. now left.
  - intros b. constructor. exact I.
  - intros y b. apply may_panic_safe. intros r H. right. now exists y, b.
Qed.
(** Building optimized Huffman tables comes to an end for every array of 257 frequencies, also when their sums
    overflow (with more than 68 million data units). *)
Theorem C47_tables : forall P freq r, length freq = 257%nat -> may_panic (new_optimized P freq) r -> checked_panic P r.
Proof.
  intros P freq r Hf. revert r. eapply safe_may_panic. apply safe_new_optimized; [now left|..|exact Hf].
  - intros D. right. split; [exact D|now left].
  - intros D. right. split; [exact D|now right].
Qed.

(** On 64-bit targets with the standard Huffman tables every call, valid or not, has one of three outcomes. *)
Theorem C47_every_call : forall P quality calls data w h c, ubits P = 64 -> Forall call_wf calls ->
  s_optimize (settings_of quality calls) = false -> is_u16 w -> is_u16 h -> Forall is_u8 data -> Z.of_nat (length data) < 2 ^ 63 ->
  let required := w * h * spec_bpp c in
  if Z.of_nat (length data) <? required
  then exec (run_encode P quality calls data w h c) = ([], Err (BadImageData (Z.of_nat (length data)) required))
  else if (w =? 0) || (h =? 0)
  then exec (run_encode P quality calls data w h c) = ([], Err (ZeroImageDimensions w h))
  else exists bytes, exec (run_encode P quality calls data w h c) = (bytes, Ok tt) /\ Forall is_u8 bytes.
Proof.
  intros P quality calls data w h c H64 Hc Ho Hw Hh Hb Hl required.
  assert (HP : plat_ok P) by (now right). assert (Hfit := fits_64 P w h c H64 Hw Hh).
  destruct (Z.of_nat (length data) <? required) eqn:E.
  - apply C08_bad_data; try assumption. unfold required in E. lia.
  - destruct ((w =? 0) || (h =? 0)) eqn:E0; [apply C08_zero_dimension; try assumption; unfold required in E; lia|].
    destruct (C36_every_configuration P quality calls data w h c) as [[H _]|(X & _)].
    + constructor; [exact Hc| |intros O; congruence]. unfold is_u16 in Hw, Hh. constructor; try assumption; try (unfold required in E; lia).
      rewrite H64. exact Hl.
    + apply H. now left.
    + congruence.
Qed.

(** ** Concrete cases *)
(** The panics that remain do happen: an index (a 32-bit release build, C34; a histogram that needs codes of more than
    32 bits, C21), an overflow (C34), a debug assertion (C03); and the panic of a buffer is passed on. *)
Example C47_index_case : may_panic (run_encode release32 90 [] [] 32768 32768 Rgba) PIndex.
Proof. exists (list Z), (fun s b => (s ++ b, None)), []. vm_compute. reflexivity. Qed.
Example C47_index_tables_case : may_panic (new_optimized debug64 too_skewed) PIndex /\ length too_skewed = 257%nat.
Proof. split; [exists unit, (fun s _ => (s, None)), tt; vm_compute; reflexivity|reflexivity]. Qed.
Example C47_overflow_case : may_panic (run_encode debug32 75 [] [] 32768 32768 Rgba) POverflow.
Proof. exists (list Z), (fun s b => (s ++ b, None)), []. vm_compute. reflexivity. Qed.
Example C47_assert_case : may_panic (run_encode debug64 90 bad_cfg bad_data 16 8 Luma) PDebugAssert /\ Forall call_wf bad_cfg.
Proof.
  split; [exists (list Z), (fun s b => (s ++ b, None)), []; vm_compute; reflexivity|].
  repeat constructor; cbn; unfold is_u16; lia.
Qed.
Definition failing_image (r : panic_reason) : image :=
  {| im_color := JLuma; im_width := 8; im_height := 8; im_fill := fun _ _ => Panic r |}.
Example C47_image_case : forall r, may_panic (run_encode_image debug64 75 [] (failing_image r)) r.
Proof. intros r. exists (list Z), (fun s b => (s ++ b, None)), []. vm_compute. reflexivity. Qed.
Example C47_every_call_case : snd (exec (run_encode debug64 75 [] [1; 2; 3; 4; 5] 2 3 Luma)) = Err (BadImageData 5 6).
Proof. vm_compute. reflexivity. Qed.
