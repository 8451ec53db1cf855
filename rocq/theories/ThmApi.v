(** Theorems about the public API around encoding: configuration, validation, headers, errors.
    Properties C07, C08, C09, C10, C11, C14, C29, C30, C34, C35, C37. *)
From Verif Require Import PRound PWr PCong T81.
From Coq Require Import ZifyBool ZifyNat.
Local Ltac Zify.zify_post_hook ::= Z.div_mod_to_equations.

(** ** C37: set_progressive_scans *)
Theorem C37_scans_accepted : forall n e, 2 <= n <= 64 ->
  exists e', set_progressive_scans n e = Ret e' /\ get_progressive_scans e' = Some n.
Proof.
  intros n e Hn. unfold set_progressive_scans, assert_.
  replace ((2 <=? n) && (n <=? 64)) with true by lia. eexists. split; reflexivity.
Qed.
Theorem C37_scans_rejected : forall n e, n < 2 \/ 64 < n -> exists r, set_progressive_scans n e = Panic r.
Proof.
  intros n e Hn. unfold set_progressive_scans, assert_.
  replace ((2 <=? n) && (n <=? 64)) with false by lia. eexists; reflexivity.
Qed.

(** ** C29: histories of configuration calls *)
(** After any sequence of calls the getters report the last value set, every call returned what its
    contract says, and nothing panicked. *)
Theorem C29_getters : forall P quality calls, Forall call_wf calls ->
  exists e, build P quality calls = Ret (e, map call_result calls) /\
    let s := settings_of quality calls in
    get_density e = s_density s /\
    get_sampling_factor e = s_sampling s /\
    get_quantization_tables e = [s_luma s; s_chroma s] /\
    get_progressive_scans e = s_scans s /\
    get_restart_interval e = (if s_restart s =? 0 then None else Some (s_restart s)) /\
    get_optimized_huffman_tables e = s_optimize s.
Proof.
  intros P quality calls Hw. exists (enc_of (settings_of quality calls)). split; [now apply build_ret|].
  repeat split; reflexivity.
Qed.

(** The file (and error, and panic) depends only on the final settings. *)
Theorem C29_file : forall P quality1 calls1 quality2 calls2 data w h c,
  Forall call_wf calls1 -> Forall call_wf calls2 ->
  settings_of quality1 calls1 = settings_of quality2 calls2 ->
  run_encode P quality1 calls1 data w h c = run_encode P quality2 calls2 data w h c.
Proof.
  intros P q1 c1 q2 c2 data w h c H1 H2 E. unfold run_encode. rewrite !build_ret by assumption.
  cbn [bind]. now rewrite E.
Qed.
Theorem C29_file_image : forall P quality1 calls1 quality2 calls2 im,
  Forall call_wf calls1 -> Forall call_wf calls2 ->
  settings_of quality1 calls1 = settings_of quality2 calls2 ->
  run_encode_image P quality1 calls1 im = run_encode_image P quality2 calls2 im.
Proof.
  intros P q1 c1 q2 c2 im H1 H2 E. unfold run_encode_image. rewrite !build_ret by assumption.
  cbn [bind]. now rewrite E.
Qed.

(** Example history: overwritten values, a rejected segment, an accepted one. *)
Definition ex_calls : list call :=
  [CRestart 7; CProgressive true; CSegment 0 [1]; CSampling R_4_2_0; CSegment 3 [1; 2]; CRestart 0;
   CScans 5; CDensity (DensityInch 300 299); COptimize true; COptimize false].
Example ex_calls_wf : Forall call_wf ex_calls.
Proof. repeat constructor; unfold is_u8, is_u16; cbn; lia. Qed.
Example ex_settings : settings_of 80 ex_calls =
  {| s_quality := 80; s_density := DensityInch 300 299; s_sampling := R_4_2_0; s_luma := QDefault;
     s_chroma := QDefault; s_scans := Some 5; s_restart := 0; s_optimize := false;
     s_segments := [(3, [1; 2])] |}.
Proof. reflexivity. Qed.

(** ** C09: add_app_segment *)
Theorem C09_contract : forall nr data e, is_u8 nr ->
  add_app_segment nr data e =
  (if (1 <=? nr) && (nr <=? 15) then
     if Z.of_nat (length data) <=? 65533 then (with_segments (e_segments e ++ [(nr, data)]) e, None)
     else (e, Some (AppSegmentTooLarge (Z.of_nat (length data))))
   else (e, Some (InvalidAppSegment nr))).
Proof.
  intros nr data e Hn. unfold is_u8 in Hn. unfold add_app_segment, zlen.
  replace ((nr =? 0) || (15 <? nr)) with (negb ((1 <=? nr) && (nr <=? 15))) by lia.
  destruct ((1 <=? nr) && (nr <=? 15)); cbn [negb]; [|reflexivity].
  replace (65533 <? Z.of_nat (length data)) with (negb (Z.of_nat (length data) <=? 65533)) by lia.
  now destruct (Z.of_nat (length data) <=? 65533).
Qed.

(** ** C10: ICC profiles *)
(** ICC.1 Annex B.4: collect the APP2 segments with the ICC marker, order them by sequence number. *)
Fixpoint strip_prefix (p l : list Z) : option (list Z) :=
  match p, l with
  | [], _ => Some l
  | x :: p', y :: l' => if x =? y then strip_prefix p' l' else None
  | _ :: _, [] => None
  end.
Definition icc_chunk (s : Z * list Z) : option (Z * Z * list Z) :=
  if fst s =? 2 then
    match strip_prefix icc_marker (snd s) with
    | Some (seq :: total :: payload) => Some (seq, total, payload)
    | _ => None
    end
  else None.
Definition icc_chunks (segs : list (Z * list Z)) : list (Z * Z * list Z) :=
  flat_map (fun s => match icc_chunk s with Some c => [c] | None => [] end) segs.
Definition icc_reassemble (segs : list (Z * list Z)) : option (list Z) :=
  let cs := icc_chunks segs in
  let n := Z.of_nat (length cs) in
  if negb (n =? 0) && forallb (fun '((_, total, _) : Z * Z * list Z) => total =? n) cs then
    fold_right (fun i acc =>
      match acc, filter (fun '((seq, _, _) : Z * Z * list Z) => seq =? Z.of_nat i) cs with
      | Some d, [(_, _, p)] => Some (p ++ d)
      | _, _ => None
      end) (Some []) (seq 1 (length cs))
  else None.

Lemma icc_chunk_of i n p : icc_chunk (2, icc_marker ++ [i; n] ++ p) = Some (i, n, p).
Proof. reflexivity. Qed.

Lemma icc_chunks_of n : forall (ps : list (list Z)) k,
  icc_chunks (map (fun '(i, p) => (2, icc_marker ++ [Z.of_nat i + 1; n] ++ p)) (combine (seq k (length ps)) ps))
  = map (fun '(i, p) => (Z.of_nat i + 1, n, p)) (combine (seq k (length ps)) ps).
Proof.
  induction ps as [|p ps IH]; intros k; [reflexivity|]. cbn [length seq combine map].
  unfold icc_chunks in *. cbn [flat_map]. rewrite icc_chunk_of, IH. reflexivity.
Qed.

Lemma filter_seq n : forall (ps : list (list Z)) k i, (k <= i < k + length ps)%nat ->
  filter (fun '((s, _, _) : Z * Z * list Z) => s =? Z.of_nat (S i)) (map (fun '(i, p) => (Z.of_nat i + 1, n, p)) (combine (seq k (length ps)) ps))
  = [(Z.of_nat i + 1, n, nth (i - k) ps [])].
Proof.
  induction ps as [|p ps IH]; intros k i Hi; cbn [length] in Hi; [lia|].
  cbn [length seq combine map filter].
  destruct (Z.of_nat k + 1 =? Z.of_nat (S i)) eqn:E.
  - assert (k = i) by lia. subst i. rewrite Nat.sub_diag. cbn [nth]. f_equal.
    assert (G : forall qs j, (k < j)%nat ->
      filter (fun '((s, _, _) : Z * Z * list Z) => s =? Z.of_nat (S k)) (map (fun '(i, p) => (Z.of_nat i + 1, n, p)) (combine (seq j (length qs)) qs)) = @nil (Z * Z * list Z)).
    { clear. induction qs as [|q qs IH]; intros j Hj; [reflexivity|]. cbn [length seq combine map filter].
      replace (Z.of_nat j + 1 =? Z.of_nat (S k)) with false by lia. apply IH. lia. }
    apply G. lia.
  - rewrite IH by lia. replace (i - k)%nat with (S (i - S k)) by lia. reflexivity.
Qed.

Lemma icc_segments_reassemble data : data <> [] -> icc_chunks (icc_segments data) =
  map (fun '(i, p) => (Z.of_nat i + 1, Z.of_nat (length (icc_pieces data)), p)) (combine (seq 0 (length (icc_pieces data))) (icc_pieces data)).
Proof. intros Hd. unfold icc_segments. apply icc_chunks_of. Qed.

Lemma reassemble_fold n (ps : list (list Z)) :
  fold_right (fun i acc =>
      match acc, filter (fun '((seq, _, _) : Z * Z * list Z) => seq =? Z.of_nat i)
         (map (fun '(i, p) => (Z.of_nat i + 1, n, p)) (combine (seq 0 (length ps)) ps)) with
      | Some d, [(_, _, p)] => Some (p ++ d)
      | _, _ => None
      end) (Some []) (seq 1 (length ps)) = Some (concat ps).
Proof.
  assert (G : forall m, (m <= length ps)%nat ->
    fold_right (fun i acc =>
      match acc, filter (fun '((seq, _, _) : Z * Z * list Z) => seq =? Z.of_nat i)
         (map (fun '(i, p) => (Z.of_nat i + 1, n, p)) (combine (seq 0 (length ps)) ps)) with
      | Some d, [(_, _, p)] => Some (p ++ d)
      | _, _ => None
      end) (Some []) (seq (S (length ps - m)) m) = Some (concat (skipn (length ps - m) ps))).
  { induction m as [|m IH]; intros Hm.
    - cbn [seq fold_right]. rewrite Nat.sub_0_r, skipn_all. reflexivity.
    - cbn [seq fold_right]. replace (S (S (length ps - S m))) with (S (length ps - m)) by lia.
      rewrite IH by lia. rewrite (filter_seq n ps 0 (length ps - S m)) by lia. cbv iota beta. f_equal.
      rewrite Nat.sub_0_r.
      replace (length ps - m)%nat with (S (length ps - S m)) by lia.
      set (k := (length ps - S m)%nat). assert (Hk : (k < length ps)%nat) by lia. clearbody k. clear - Hk.
      revert k Hk. induction ps as [|p ps IH]; intros k Hk; cbn [length] in Hk; [lia|].
      destruct k as [|k]; [reflexivity|]. cbn [nth skipn]. apply IH. lia. }
  specialize (G (length ps) ltac:(lia)). rewrite Nat.sub_diag in G. exact G.
Qed.

Definition contributes_icc (c : call) : bool :=
  match c with
  | CIcc _ => true
  | CSegment nr d => match icc_chunk (nr, d) with Some _ => true | None => false end
  | _ => false
  end.

Lemma icc_chunks_app a b : icc_chunks (a ++ b) = icc_chunks a ++ icc_chunks b.
Proof. unfold icc_chunks. apply flat_map_app. Qed.
Lemma no_icc calls : forallb (fun c => negb (contributes_icc c)) calls = true -> icc_chunks (flat_map segments_of calls) = [].
Proof.
  induction calls as [|c cs IH]; intros Hc; [reflexivity|]. cbn [forallb flat_map] in *.
  apply andb_prop in Hc as [Hc Hcs]. rewrite icc_chunks_app, IH by assumption. rewrite app_nil_r.
  destruct c; cbn [segments_of]; try reflexivity; [|discriminate Hc].
  destruct ((1 <=? nr) && (nr <=? 15) && (Z.of_nat (length data) <=? 65533)); [|reflexivity].
  unfold contributes_icc in Hc. unfold icc_chunks. cbn [flat_map].
  destruct (icc_chunk (nr, data)); [discriminate Hc|reflexivity].
Qed.

(** A profile added once is recovered from the application segments of the file, whatever else was
    configured before and after. *)
Theorem C10_round_trip : forall quality pre data post color,
  data <> [] -> Z.of_nat (length data) <= 254 * 65519 ->
  forallb (fun c => negb (contributes_icc c)) (pre ++ post) = true ->
  call_result (CIcc data) = None /\
  icc_reassemble (apps_for (settings_of quality (pre ++ CIcc data :: post)) color) = Some data.
Proof.
  intros quality pre data post color Hd Hl Hn. rewrite forallb_app in Hn. apply andb_prop in Hn as [Hn1 Hn2]. split.
  { unfold call_result, icc_limit. replace (254 * 65519 <? Z.of_nat (length data)) with false by lia. reflexivity. }
  assert (E : icc_chunks (apps_for (settings_of quality (pre ++ CIcc data :: post)) color) = icc_chunks (icc_segments data)).
  { unfold apps_for. cbn [settings_of s_segments].
    change (icc_chunks ((0, jfif (s_density (settings_of quality (pre ++ CIcc data :: post)))) ::
      match color with JCmyk => [(14, adobe 0)] | JYcck => [(14, adobe 2)] | _ => [] end ++
      flat_map segments_of (pre ++ CIcc data :: post)))
      with (icc_chunks (match color with JCmyk => [(14, adobe 0)] | JYcck => [(14, adobe 2)] | _ => [] end ++
      flat_map segments_of (pre ++ CIcc data :: post))).
    rewrite icc_chunks_app.
    replace (icc_chunks (match color with JCmyk => [(14, adobe 0)] | JYcck => [(14, adobe 2)] | _ => [] end)) with (@nil (Z * Z * list Z))
      by (destruct color; reflexivity).
    rewrite flat_map_app. cbn [app flat_map]. rewrite !icc_chunks_app, no_icc, (no_icc post) by assumption.
    rewrite app_nil_r. cbn [app segments_of]. unfold icc_limit.
    replace (Z.of_nat (length data) <=? 254 * 65519) with true by lia. reflexivity. }
  unfold icc_reassemble. rewrite E, icc_segments_reassemble by assumption.
  set (ps := icc_pieces data).
  assert (Hps : ps <> []) by (unfold ps; rewrite icc_pieces_cons by assumption; discriminate).
  rewrite map_length, combine_length, seq_length, Nat.min_id.
  replace (negb (Z.of_nat (length ps) =? 0)) with true by (destruct ps; [congruence|cbn [length]; lia]).
  replace (forallb (fun '((_, total, _) : Z * Z * list Z) => total =? Z.of_nat (length ps))
             (map (fun '(i, p) => (Z.of_nat i + 1, Z.of_nat (length ps), p)) (combine (seq 0 (length ps)) ps))) with true.
  2:{ symmetry. apply forallb_forall. intros [[a b] p] Hi. apply in_map_iff in Hi as ([i q] & Hq & _). inversion Hq; subst. lia. }
  cbn [andb]. rewrite reassemble_fold. f_equal. apply icc_pieces_concat.
Qed.
Example ex_icc : icc_reassemble (apps_for (settings_of 80 ([CSegment 2 [9]] ++ CIcc [1; 2; 3] :: [CRestart 4])) JCmyk) = Some [1; 2; 3].
Proof. reflexivity. Qed.

(** The sequence numbers and the total fit their bytes and each segment fits a marker segment. *)
Theorem C10_segments_fit : forall data, Forall is_u8 data -> Z.of_nat (length data) <= 254 * 65519 ->
  Forall (fun s => fst s = 2 /\ Z.of_nat (length (snd s)) <= 65533 /\ Forall is_u8 (snd s)) (icc_segments data).
Proof.
  intros data Hb Hl. pose proof (icc_segments_ok data Hb Hl) as H. rewrite Forall_forall in *.
  intros s Hs. destruct (H s Hs) as (_ & H2 & H3). split; [|split; [exact H2|exact H3]].
  unfold icc_segments in Hs. apply in_map_iff in Hs as ([i p] & <- & _). reflexivity.
Qed.

(** A profile that is too large changes nothing, and the call reports it. *)
Theorem C10_too_large : forall P data e, 254 * 65519 < Z.of_nat (length data) ->
  add_icc_profile P data e = Ret (e, Some (IccTooLarge (Z.of_nat (length data)))).
Proof.
  intros P data e H. rewrite add_icc_profile_ret. unfold zlen, icc_limit.
  replace (Z.of_nat (length data) <=? 254 * 65519) with false by lia. reflexivity.
Qed.

(** ** C11: the documented limit (65,519 bytes times 255 = 16,707,345) is not reached: every profile
    that needs exactly 255 segments is rejected. *)
Theorem C11_violated : forall P data e, 16641826 < Z.of_nat (length data) <= 16707345 ->
  add_icc_profile P data e = Ret (e, Some (IccTooLarge (Z.of_nat (length data)))).
Proof. intros P data e H. apply C10_too_large. lia. Qed.
Theorem C11_actual_limit : forall P data e, Z.of_nat (length data) <= 16641826 ->
  exists e', add_icc_profile P data e = Ret (e', None).
Proof.
  intros P data e H. rewrite add_icc_profile_ret. unfold zlen, icc_limit.
  replace (Z.of_nat (length data) <=? 254 * 65519) with true by lia. eexists; reflexivity.
Qed.

(** ** C30: sampling factor aliases *)
Definition canonical (s : sampling) : sampling :=
  match s with
  | R_4_4_4 => F_1_1 | R_4_4_0 => F_1_2 | R_4_4_1 => F_1_4 | R_4_2_2 => F_2_1
  | R_4_2_0 => F_2_2 | R_4_2_1 => F_2_4 | R_4_1_1 => F_4_1 | R_4_1_0 => F_4_2
  | s => s
  end.
Definition canonical_call (c : call) : call :=
  match c with CSampling s => CSampling (canonical s) | c => c end.

Lemma canonical_internal P op s im :
  encode_image_internal P op (enc_of s) im
  = encode_image_internal P op (enc_of {| s_quality := s_quality s; s_density := s_density s;
      s_sampling := canonical (s_sampling s); s_luma := s_luma s; s_chroma := s_chroma s;
      s_scans := s_scans s; s_restart := s_restart s; s_optimize := s_optimize s; s_segments := s_segments s |}) im.
Proof.
  destruct s as [q d sa l c sc r o sg]. unfold encode_image_internal, enc_of.
  cbn [s_quality s_density s_sampling s_luma s_chroma s_scans s_restart s_optimize s_segments
       e_density e_quality e_components e_qtypes e_huff e_sampling e_prog e_restart e_optimize e_segments].
  destruct sa; reflexivity.
Qed.

Lemma settings_canonical quality calls : settings_of quality (map canonical_call calls) =
  let s := settings_of quality calls in
  {| s_quality := s_quality s; s_density := s_density s;
      s_sampling := canonical (s_sampling s); s_luma := s_luma s; s_chroma := s_chroma s;
      s_scans := s_scans s; s_restart := s_restart s; s_optimize := s_optimize s; s_segments := s_segments s |}.
Proof.
  rewrite <- !settings_from_new. cbv zeta. unfold settings_from.
  cbn [s_quality s_density s_sampling s_luma s_chroma s_scans s_restart s_optimize s_segments new_settings].
  assert (G : forall A (f : call -> option A) d, (forall c, f (canonical_call c) = f c) ->
     last_set f (map canonical_call calls) d = last_set f calls d).
  { intros A f. induction calls as [|c cs IH]; intros d Hf; [reflexivity|].
    cbn [map]. rewrite !last_set_cons, Hf. now apply IH. }
  assert (Gs : forall d, last_set sel_sampling (map canonical_call calls) (canonical d) = canonical (last_set sel_sampling calls d)).
  { clear. induction calls as [|c cs IH]; intros d; [reflexivity|].
    cbn [map]. rewrite !last_set_cons. destruct c; apply IH. }
  replace (flat_map segments_of (map canonical_call calls)) with (flat_map segments_of calls).
  2:{ clear. induction calls as [|c cs IH]; [reflexivity|]. cbn [map flat_map]. rewrite IH. now destruct c. }
  f_equal; try (apply G; intros []; reflexivity). rewrite <- Gs. f_equal. now destruct (quality <? 90).
Qed.

Lemma canonical_wf calls : Forall call_wf calls -> Forall call_wf (map canonical_call calls).
Proof. intros H. apply Forall_map. eapply Forall_impl; [|exact H]. intros c Hc. now destruct c. Qed.

(** Replacing the alias names by the factor names changes neither output nor outcome. *)
Theorem C30_aliases : forall P quality calls data w h c, Forall call_wf calls ->
  run_encode P quality calls data w h c = run_encode P quality (map canonical_call calls) data w h c.
Proof.
  intros P quality calls data w h c Hw. unfold run_encode.
  rewrite !build_ret by (assumption || now apply canonical_wf). cbn [bind].
  unfold encode, encode_image. rewrite settings_canonical. cbv zeta. rewrite <- canonical_internal. reflexivity.
Qed.
Theorem C30_aliases_image : forall P quality calls im, Forall call_wf calls ->
  run_encode_image P quality calls im = run_encode_image P quality (map canonical_call calls) im.
Proof.
  intros P quality calls im Hw. unfold run_encode_image.
  rewrite !build_ret by (assumption || now apply canonical_wf). cbn [bind].
  unfold encode_image. rewrite settings_canonical. cbv zeta. rewrite <- canonical_internal. reflexivity.
Qed.

(** from_factors returns the variant with the requested factors, and [None] exactly for the pairs that no
    variant has. *)
Theorem C30_from_factors : forall h v,
  (forall s, from_factors h v = Some s -> factors s = (h, v)) /\
  (from_factors h v = None <-> forall s, factors s <> (h, v)).
Proof.
  intros h v.
  assert (H : forall s, from_factors h v = Some s -> factors s = (h, v)).
  { intros s. unfold from_factors.
    destruct h as [|[[[]|[]|]|[[]|[]|]|]|], v as [|[[[]|[]|]|[[]|[]|]|]|]; try discriminate; intros [= <-]; reflexivity. }
  split; [exact H|]. split.
  - intros E s Hs. destruct s; cbn in Hs; inversion Hs; subst; discriminate E.
  - intros E. destruct (from_factors h v) as [s|] eqn:F; [|reflexivity]. exfalso. exact (E s (H s eq_refl)).
Qed.
(** The factors the encoder uses are those the names say. *)
Theorem C30_factors : forall s, sampling_factors s = factors s.
Proof. intros []; reflexivity. Qed.

(** ** C14: quality is clamped *)
Lemma clamp_quality q : clamp q 1 100 = clamp (clamp q 1 100) 1 100.
Proof. rewrite !clamp_minmax by lia. lia. Qed.
Lemma nwq_clamp t q l : new_with_quality t q l = new_with_quality t (clamp q 1 100) l.
Proof.
  unfold new_with_quality, get_with_quality.
  replace (quality_scale (clamp q 1 100)) with (quality_scale q); [reflexivity|].
  unfold quality_scale. now rewrite <- clamp_quality.
Qed.
Lemma clamp_internal P op s im q :
  clamp q 1 100 = clamp (s_quality s) 1 100 ->
  encode_image_internal P op (enc_of s) im
  = encode_image_internal P op (enc_of {| s_quality := q; s_density := s_density s;
      s_sampling := s_sampling s; s_luma := s_luma s; s_chroma := s_chroma s;
      s_scans := s_scans s; s_restart := s_restart s; s_optimize := s_optimize s; s_segments := s_segments s |}) im.
Proof.
  intros Hq. destruct s as [q' d sa l c sc r o sg]. unfold encode_image_internal, enc_of.
  cbn [s_quality s_density s_sampling s_luma s_chroma s_scans s_restart s_optimize s_segments
       e_density e_quality e_components e_qtypes e_huff e_sampling e_prog e_restart e_optimize e_segments] in *.
  destruct (_ || _); [reflexivity|]. change (index [l; c] 0) with (@Ret qtype l). change (index [l; c] 1) with (@Ret qtype c).
  cbn [bind]. rewrite (nwq_clamp l q'), (nwq_clamp l q), (nwq_clamp c q'), (nwq_clamp c q), Hq.
  reflexivity.
Qed.

(** Quality q and the nearest value in 1..100 give the same file, the same error or the same panic. *)
Theorem C14_clamped : forall P quality calls data w h c, Forall call_wf calls ->
  run_encode P quality calls data w h c
  = run_encode P (Z.max 1 (Z.min 100 quality)) calls data w h c.
Proof.
  intros P quality calls data w h c Hw. unfold run_encode. rewrite !build_ret by assumption. cbn [bind].
  unfold encode, encode_image.
  rewrite (clamp_internal P default_operations (settings_of quality calls) _ (Z.max 1 (Z.min 100 quality)))
    by (cbn [s_quality settings_of]; rewrite !clamp_minmax by lia; lia).
  unfold settings_of. cbn [s_quality s_density s_sampling s_luma s_chroma s_scans s_restart s_optimize s_segments].
  replace (Z.max 1 (Z.min 100 quality) <? 90) with (quality <? 90) by lia. reflexivity.
Qed.
Theorem C14_clamped_image : forall P quality calls im, Forall call_wf calls ->
  run_encode_image P quality calls im = run_encode_image P (Z.max 1 (Z.min 100 quality)) calls im.
Proof.
  intros P quality calls im Hw. unfold run_encode_image. rewrite !build_ret by assumption. cbn [bind].
  unfold encode_image.
  rewrite (clamp_internal P default_operations (settings_of quality calls) _ (Z.max 1 (Z.min 100 quality)))
    by (cbn [s_quality settings_of]; rewrite !clamp_minmax by lia; lia).
  unfold settings_of. cbn [s_quality s_density s_sampling s_luma s_chroma s_scans s_restart s_optimize s_segments].
  replace (Z.max 1 (Z.min 100 quality) <? 90) with (quality <? 90) by lia. reflexivity.
Qed.

(** ** C08: validation *)
(** [w * h * bpp] fits usize: always with 64 bits. *)
Lemma fits_64 : forall P w h c, ubits P = 64 -> is_u16 w -> is_u16 h -> w * h * spec_bpp c < 2 ^ ubits P.
Proof.
  intros P w h c -> Hw Hh. unfold is_u16 in *. assert (spec_bpp c <= 4) by (destruct c; cbn; lia).
  assert (0 <= w * h <= 65535 * 65535) by nia. change (2 ^ 64) with 18446744073709551616. nia.
Qed.

Section C08.
  Variable P : platform.
  Variable HP : plat_ok P.
  Variables (quality : Z) (calls : list call) (data : list Z) (w h : Z) (c : ctype).
  Variable Hcalls : Forall call_wf calls.
  Variable Hw : is_u16 w.
  Variable Hh : is_u16 h.
  Variable Hfit : w * h * spec_bpp c < 2 ^ ubits P.

  Lemma encode_checks e : encode P e data w h c =
    if Z.of_nat (length data) <? w * h * spec_bpp c
    then Throw (BadImageData (Z.of_nat (length data)) (w * h * spec_bpp c))
    else encode_image P e (image_of P data w h c).
  Proof.
    unfold is_u16 in *. assert (1 <= spec_bpp c) by (destruct c; cbn; lia).
    unfold encode, ck_usize. rewrite ck_u_ret by nia. cbn [bind]. rewrite spec_bpp_eq.
    rewrite ck_u_ret by nia. reflexivity.
  Qed.

  (** Too little data: reported with both lengths, nothing written. *)
  Theorem C08_bad_data : Z.of_nat (length data) < w * h * spec_bpp c ->
    exec (run_encode P quality calls data w h c) = ([], Err (BadImageData (Z.of_nat (length data)) (w * h * spec_bpp c))).
  Proof.
    intros H. unfold run_encode. rewrite build_ret by assumption. cbn [bind]. rewrite encode_checks.
    replace (Z.of_nat (length data) <? w * h * spec_bpp c) with true by lia. reflexivity.
  Qed.
  (** A zero dimension (and enough data, that is: any data): reported, nothing written. *)
  Theorem C08_zero_dimension : w * h * spec_bpp c <= Z.of_nat (length data) -> w = 0 \/ h = 0 ->
    exec (run_encode P quality calls data w h c) = ([], Err (ZeroImageDimensions w h)).
  Proof.
    intros H Hz. unfold run_encode. rewrite build_ret by assumption. cbn [bind]. rewrite encode_checks.
    replace (Z.of_nat (length data) <? w * h * spec_bpp c) with false by lia.
    unfold encode_image, encode_image_internal. rewrite image_of_width, image_of_height.
    replace ((w =? 0) || (h =? 0)) with true by lia. reflexivity.
  Qed.
  (** In all other cases [encode] returns no error at all on a sink that accepts everything. *)
  Theorem C08_otherwise : w * h * spec_bpp c <= Z.of_nat (length data) -> w <> 0 -> h <> 0 ->
    forall bytes e, exec (run_encode P quality calls data w h c) <> (bytes, Err e).
  Proof.
    intros H H1 H2. unfold run_encode. rewrite build_ret by assumption. cbn [bind]. rewrite encode_checks.
    replace (Z.of_nat (length data) <? w * h * spec_bpp c) with false by lia.
    unfold encode_image. apply wr_not_err. apply wr_internal.
    - apply default_op_wr.
    - apply wr_image_of.
    - now rewrite image_of_width.
    - now rewrite image_of_height.
  Qed.
End C08.

(** ** C07: write failures *)
Lemma ck_usize_cases P z : (exists v, ck_usize P z = Ret v) \/ (exists r, ck_usize P z = Panic r).
Proof.
  unfold ck_usize, ck_u. destruct (_ && _); [left; eauto|]. destruct (dbg P); [right|left]; eauto.
Qed.
Lemma encode_wr_or_throw P e data w h c :
  wr (encode P e data w h c) \/ exists err, encode P e data w h c = Throw err.
Proof.
  assert (G : wr (encode_image P e (image_of P data w h c)) \/ exists err, encode_image P e (image_of P data w h c) = Throw err).
  { unfold encode_image. destruct (Z.eq_dec w 0) as [->|H1]; [|destruct (Z.eq_dec h 0) as [->|H2]].
    - right. unfold encode_image_internal. rewrite image_of_width, image_of_height. cbn [Z.eqb orb]. eauto.
    - right. unfold encode_image_internal. rewrite image_of_width, image_of_height.
      replace ((w =? 0) || (0 =? 0)) with true by (cbn; lia). eauto.
    - left. apply wr_internal.
      + apply default_op_wr.
      + apply wr_image_of.
      + now rewrite image_of_width.
      + now rewrite image_of_height. }
  unfold encode. destruct (ck_usize_cases P (w * h)) as [[v ->]|[r ->]]; cbn [bind]; [|left; constructor].
  destruct (ck_usize_cases P (v * bytes_per_pixel c)) as [[v' ->]|[r ->]]; cbn [bind]; [|left; constructor].
  destruct (_ <? _); [right; eauto|exact G].
Qed.

(** For every run there is a fixed sequence of chunks, whose concatenation is what a sink that accepts
    everything receives, and every sink is offered these chunks in order until it reports an error; that
    error is returned (and nothing is offered afterwards), otherwise the outcome is the same as with the
    sink that accepts everything. *)
Theorem C07_write_failures : forall P quality calls data w h c,
  exists chunks : list (list Z),
    concat chunks = fst (exec (run_encode P quality calls data w h c)) /\
    forall S (sink : S -> list Z -> S * option error) (s : S),
      run sink (run_encode P quality calls data w h c) s
      = match feed sink s chunks with
        | (s', Some e) => (s', Err e)
        | (s', None) => (s', snd (exec (run_encode P quality calls data w h c)))
        end.
Proof.
  intros P quality calls data w h c. exists (writes (run_encode P quality calls data w h c)).
  split; [symmetry; apply wr_concat|]. intros S sink s. unfold run_encode.
  assert (Hb : (exists r, build P quality calls = Ret r) \/ (exists r, build P quality calls = Panic r)).
  { unfold build, encoder_new. rewrite std_luma_dc_ret, std_luma_ac_ret, std_chroma_dc_ret, std_chroma_ac_ret. cbn [bind].
    match goal with |- context [do_calls P calls ?e0] => generalize e0 end. induction calls as [|c0 cs IH]; intros e0.
    - left. eexists; reflexivity.
    - cbn [do_calls]. assert (Hc : (exists r, do_call P c0 e0 = Ret r) \/ exists r, do_call P c0 e0 = Panic r).
      { destruct c0; cbn [do_call]; try (left; eexists; reflexivity).
        - unfold set_progressive_scans, assert_. destruct (_ && _); [left|right]; eexists; reflexivity.
        - rewrite add_icc_profile_ret. left. eexists; reflexivity. }
      destruct Hc as [[[e1 r1] ->]|[r ->]]; cbn [bind]; [|right; eexists; reflexivity].
      destruct (IH e1) as [[[e2 r2] ->]|[r ->]]; cbn [bind]; [left|right]; eexists; reflexivity. }
  destruct Hb as [[[e r] ->]|[r ->]]; cbn [bind]; [|reflexivity].
  destruct (encode_wr_or_throw P e data w h c) as [Hp|[err ->]].
  - apply wr_run. exact Hp.
  - reflexivity.
Qed.
(** The same for a user-supplied image buffer, which has no access to the sink. *)
Theorem C07_write_failures_image : forall P quality calls im, Forall call_wf calls -> im_wr im ->
  exists chunks : list (list Z),
    concat chunks = fst (exec (run_encode_image P quality calls im)) /\
    forall S (sink : S -> list Z -> S * option error) (s : S),
      run sink (run_encode_image P quality calls im) s
      = match feed sink s chunks with
        | (s', Some e) => (s', Err e)
        | (s', None) => (s', snd (exec (run_encode_image P quality calls im)))
        end.
Proof.
  intros P quality calls im Hc Him. exists (writes (run_encode_image P quality calls im)).
  split; [symmetry; apply wr_concat|]. intros S sink s.
  rewrite run_encode_image_eq by assumption.
  destruct (Z.eq_dec (im_width im) 0) as [H1|H1]; [|destruct (Z.eq_dec (im_height im) 0) as [H2|H2]].
  - unfold encode_image_internal. rewrite H1. reflexivity.
  - unfold encode_image_internal. rewrite H2. replace ((im_width im =? 0) || (0 =? 0)) with true by (cbn; lia). reflexivity.
  - apply wr_run. apply wr_internal; try assumption. apply default_op_wr.
Qed.

(** A sink that accepts [n] bytes worth of chunks and then fails: what it holds is a prefix of the file. *)
Definition limited_sink (limit : Z) (s : list Z) (bs : list Z) : list Z * option error :=
  if Z.of_nat (length (s ++ bs)) <=? limit then (s ++ bs, None) else (s, Some (SinkError 0)).
Theorem C07_limited : forall P quality calls data w h c limit,
  let full := exec (run_encode P quality calls data w h c) in
  let part := run (limited_sink limit) (run_encode P quality calls data w h c) [] in
  (exists rest, fst full = fst part ++ rest) /\
  (Z.of_nat (length (fst full)) <= limit -> part = full) /\
  (0 <= limit < Z.of_nat (length (fst full)) -> snd part = Err (SinkError 0)).
Proof.
  intros P quality calls data w h c limit full part.
  destruct (C07_write_failures P quality calls data w h c) as (chunks & Hc & Hr).
  unfold part. rewrite Hr. fold full in Hc |- *.
  assert (G : forall cs s, Z.of_nat (length s) <= limit -> exists k rest, concat cs = k ++ rest /\
            ((feed (limited_sink limit) s cs = (s ++ k, None) /\ rest = [] /\ Z.of_nat (length (s ++ k)) <= limit) \/
             (feed (limited_sink limit) s cs = (s ++ k, Some (SinkError 0)) /\ limit < Z.of_nat (length (s ++ concat cs))))).
  { induction cs as [|b cs IH]; intros s Hs.
    - exists [], []. split; [reflexivity|]. left. cbn [feed]. rewrite app_nil_r. auto.
    - cbn [feed concat]. unfold limited_sink at 1 3.
      destruct (Z.of_nat (length (s ++ b)) <=? limit) eqn:E.
      + destruct (IH (s ++ b) ltac:(lia)) as (k & rest & Hk & Hf). exists (b ++ k), rest.
        rewrite Hk, <- !app_assoc. split; [reflexivity|].
        destruct Hf as [(Hf & -> & Hl)|(Hf & Hl)]; [left|right]; rewrite <- ?app_assoc in Hf, Hl; rewrite Hf.
        * auto.
        * rewrite Hk, <- ?app_assoc in Hl. split; [reflexivity|]. rewrite !app_length in *. lia.
      + exists [], (b ++ concat cs). split; [reflexivity|]. right. rewrite app_nil_r. split; [reflexivity|].
        rewrite !app_length in *. lia. }
  destruct (Z_lt_dec limit 0) as [Hneg|Hpos].
  - assert (Hcase : chunks = [] \/ feed (limited_sink limit) [] chunks = ([], Some (SinkError 0))).
    { destruct chunks as [|b cs]; [now left|right]. cbn [feed]. unfold limited_sink at 1.
      replace (Z.of_nat (length ([] ++ b)) <=? limit) with false by lia. reflexivity. }
    destruct Hcase as [-> | ->].
    + cbn [feed concat fst] in *. destruct full as [o r]. cbn [fst snd] in *. subst o. split; [now exists []|]. cbn [length]. split; [reflexivity|lia].
    + cbn [fst snd]. split; [now exists (fst full)|]. split; [lia|reflexivity].
  - destruct (G chunks [] ltac:(cbn; lia)) as (k & rest & Hk & Hf). cbn [app] in Hf. rewrite Hc in Hk, Hf.
    destruct Hf as [(-> & -> & Hl)|(-> & Hl)].
    + rewrite app_nil_r in Hk. subst k. destruct full as [o r]. cbn [fst snd] in *. split; [exists []; now rewrite app_nil_r|]. split; [reflexivity|lia].
    + cbn [fst snd]. split; [now exists rest|]. split; [lia|reflexivity].
Qed.

(** ** C34: 32-bit targets *)
Definition release32 : platform := {| ubits := 32; dbg := false |}.
Definition debug32 : platform := {| ubits := 32; dbg := true |}.
(** 32768 x 32768 RGBA pixels need 2^32 bytes; with 32-bit usize and no overflow checks an empty buffer
    passes the length test, headers are written, and only then the pixel access panics. *)
Theorem C34_violated :
  let (out, r) := exec (run_encode release32 75 [] [] 32768 32768 Rgba) in
  r = Panicked PIndex /\ Z.of_nat (length out) = 623.
Proof. vm_compute. split; reflexivity. Qed.
(** With overflow checks the same situation is always a panic before anything is written. *)
Theorem C34_debug : forall quality calls data w h c, Forall call_wf calls -> is_u16 w -> is_u16 h ->
  2 ^ 32 <= w * h * spec_bpp c ->
  exec (run_encode debug32 quality calls data w h c) = ([], Panicked POverflow).
Proof.
  intros quality calls data w h c Hc Hw Hh Ho. unfold is_u16 in *.
  unfold run_encode. rewrite build_ret by assumption. cbn [bind]. unfold encode, ck_usize.
  change (ubits debug32) with 32. rewrite ck_u_ret by (change (2 ^ 32) with 4294967296; nia). cbn [bind].
  rewrite spec_bpp_eq. unfold ck_u.
  replace (w * h * spec_bpp c <? 2 ^ 32) with false by lia. rewrite andb_false_r. reflexivity.
Qed.
Example C34_debug_case : exec (run_encode debug32 75 [] [] 32768 32768 Rgba) = ([], Panicked POverflow).
Proof. apply C34_debug; unfold is_u16; cbn; try lia. constructor. Qed.

(** ** C35: how every file starts and ends *)
Definition app_bytes (s : Z * list Z) : list Z :=
  [255; 224 + fst s] ++ u16_bytes (Z.of_nat (length (snd s)) + 2) ++ snd s.

Lemma seg_app_bytes nr p : zlen p <= 65533 -> seg (224 + nr) p = app_bytes (nr, p).
Proof.
  intros Hp. pose proof (zlen_nonneg p). unfold seg, app_bytes, u16_bytes. rewrite be2 by lia. reflexivity.
Qed.
Lemma fst_bind {A B} (m : prog A) (f : A -> prog B) o a : emits m o a ->
  fst (exec (bind m f)) = o ++ fst (exec (f a)).
Proof. intros E. rewrite exec_bind, E. destruct (exec (f a)); reflexivity. Qed.

Lemma segments_emit P l : Forall seg_ok l ->
  emits (foldM (fun _ '(nr, data) => write_segment P (APP nr) data) l tt) (flat_map app_bytes l) tt.
Proof.
  induction l as [|[nr d] l IH]; intros Hl; cbn [foldM flat_map]; [apply emits_ret|].
  inversion Hl as [|? ? (Hn & Hs & Hb) Hl']; subst. cbn [fst snd] in *.
  eapply emits_bind; [|apply IH; exact Hl'].
  rewrite <- seg_app_bytes by assumption. now apply emits_write_segment.
Qed.
Lemma adobe_emit P c :
  emits (match c with
       | JCmyk => write_segment P (APP 14) ADOBE_UNKNOWN
       | JYcck => write_segment P (APP 14) ADOBE_YCCK
       | _ => Ret tt
       end) (flat_map app_bytes (adobe_apps c)) tt.
Proof. destruct c; reflexivity. Qed.

Lemma internal_start P s im : settings_wf s -> im_width im <> 0 -> im_height im <> 0 ->
  exists rest, fst (exec (encode_image_internal P default_operations (enc_of s) im))
    = [255; 216] ++ flat_map app_bytes (apps_for s (im_color im)) ++ rest.
Proof.
  intros Hs Hw Hh. unfold encode_image_internal.
  replace ((im_width im =? 0) || (im_height im =? 0)) with false by lia.
  cbn [enc_of e_qtypes e_quality e_components e_sampling e_density e_segments app].
  change (index [s_luma s; s_chroma s] 0) with (@Ret qtype (s_luma s)).
  change (index [s_luma s; s_chroma s] 1) with (@Ret qtype (s_chroma s)).
  cbn [bind]. rewrite !new_with_quality_ret. cbn [bind].
  erewrite fst_bind by apply emits_write_all.
  erewrite fst_bind by apply emits_write_header.
  erewrite fst_bind by apply adobe_emit.
  erewrite fst_bind by (apply segments_emit; apply (sw_segs _ Hs)).
  eexists. rewrite <- (apps_for_eq s _ Hs). unfold file_apps. cbn [enc_of e_density e_segments flat_map].
  rewrite flat_map_app, <- !app_assoc. f_equal.
  destruct (jfif_payload_ok (s_density s)) as [J _].
  change 224 with (224 + 0). rewrite seg_app_bytes by lia. reflexivity.
Qed.

(** Start: SOI, JFIF header with the density, Adobe segment for CMYK and YCCK, the user's segments in
    call order - whatever happens afterwards. *)
Theorem C35_start_image : forall P quality calls im, Forall call_wf calls ->
  im_width im <> 0 -> im_height im <> 0 ->
  exists rest, fst (exec (run_encode_image P quality calls im))
    = [255; 216] ++ flat_map app_bytes (apps_for (settings_of quality calls) (im_color im)) ++ rest.
Proof.
  intros P quality calls im Hc Hw Hh. rewrite run_encode_image_eq by assumption.
  apply internal_start; try assumption. now apply settings_of_wf.
Qed.
Theorem C35_start : forall P quality calls data w h c, Forall call_wf calls -> valid_input P data w h c ->
  exists rest, fst (exec (run_encode P quality calls data w h c))
    = [255; 216] ++ flat_map app_bytes (apps_for (settings_of quality calls) (spec_color c)) ++ rest.
Proof.
  intros P quality calls data w h c Hc V. rewrite run_encode_eq by assumption.
  pose proof (vi_width _ _ _ _ _ V). pose proof (vi_height _ _ _ _ _ V).
  destruct (internal_start P (settings_of quality calls) (image_of P data w h c)) as [rest E].
  - now apply settings_of_wf.
  - rewrite image_of_width. lia.
  - rewrite image_of_height. lia.
  - exists rest. rewrite E, image_of_color. reflexivity.
Qed.

(** End: a completed file ends with EOI. *)
Lemma ends_bind {A B} (m : prog A) (f : A -> prog B) tail :
  (forall a o b, emits (f a) o b -> exists front, o = front ++ tail) ->
  forall o b, emits (bind m f) o b -> exists front, o = front ++ tail.
Proof.
  intros Hf o b E. apply emits_bind_inv in E as (o1 & a & o2 & _ & E2 & ->).
  destruct (Hf _ _ _ E2) as [fr ->]. exists (o1 ++ fr). now rewrite app_assoc.
Qed.
Lemma internal_end P op e im : forall out u, exec (encode_image_internal P op e im) = (out, Ok u) ->
  exists front, out = front ++ [255; 217].
Proof.
  change (forall out u, emits (encode_image_internal P op e im) out u -> exists front, out = front ++ [255; 217]).
  unfold encode_image_internal. destruct (_ || _); [discriminate|].
  apply (ends_bind _ _ [255; 217]). intros t0. apply (ends_bind _ _ [255; 217]). intros q0.
  apply (ends_bind _ _ [255; 217]). intros t1. apply (ends_bind _ _ [255; 217]). intros q1.
  apply (ends_bind _ _ [255; 217]). intros _. apply (ends_bind _ _ [255; 217]). intros _.
  apply (ends_bind _ _ [255; 217]). intros _. apply (ends_bind _ _ [255; 217]). intros _.
  apply (ends_bind _ _ [255; 217]). intros _ o b E. unfold emits in E. cbn in E. inversion E; subst. exists []. reflexivity.
Qed.
Theorem C35_end : forall P quality calls im out, Forall call_wf calls ->
  exec (run_encode_image P quality calls im) = (out, Ok tt) -> exists front, out = front ++ [255; 217].
Proof. intros P quality calls im out Hc. rewrite run_encode_image_eq by assumption. apply internal_end. Qed.

(** Every accepted segment is in the file verbatim, in call order, with a correct length: the part of
    C09 about the output. *)
Example C35_case : flat_map app_bytes (apps_for (settings_of 80 ex_calls) JYcck) =
  [255; 224; 0; 16; 74; 70; 73; 70; 0; 1; 2; 1; 1; 44; 1; 43; 0; 0] ++
  [255; 238; 0; 14; 65; 100; 111; 98; 101; 0; 0; 0; 0; 0; 0; 2] ++
  [255; 227; 0; 4; 1; 2].
Proof. reflexivity. Qed.

(** Concrete cases of the hypotheses of C08. *)
Example C08_case1 : exec (run_encode debug32 75 ex_calls [1; 2; 3; 4; 5] 1 2 Rgb) = ([], Err (BadImageData 5 6)).
Proof. apply C08_bad_data; try apply ex_calls_wf; unfold is_u16; cbn; try lia. Qed.
Example C08_case2 : exec (run_encode debug32 75 ex_calls [] 0 2 Rgb) = ([], Err (ZeroImageDimensions 0 2)).
Proof. apply C08_zero_dimension; try apply ex_calls_wf; unfold is_u16; cbn; try lia. Qed.
