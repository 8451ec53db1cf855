(** Configuration calls, and the whole-file theorem in terms of the specification. *)
From Verif Require Export MApi SApi PEncode PPixel.
From Verif Require Import T81.
From Coq Require Import ZifyBool ZifyNat.
Local Ltac Zify.zify_post_hook ::= Z.div_mod_to_equations.

Definition enc_of (s : settings) : encoder :=
  {| e_density := s_density s; e_quality := s_quality s; e_components := [];
     e_qtypes := [s_luma s; s_chroma s]; e_huff := std_huff; e_sampling := s_sampling s;
     e_prog := s_scans s; e_restart := if s_restart s =? 0 then None else Some (s_restart s);
     e_optimize := s_optimize s; e_segments := s_segments s |}.

Definition sel_density c := match c with CDensity d => Some d | _ => None end.
Definition sel_sampling c := match c with CSampling s => Some s | _ => None end.
Definition sel_luma c := match c with CQuant l _ => Some l | _ => None end.
Definition sel_chroma c := match c with CQuant _ ch => Some ch | _ => None end.
Definition sel_scans c := match c with
                          | CProgressive b => Some (if b then Some 4 else None)
                          | CScans n => Some (Some n)
                          | _ => None end.
Definition sel_restart c := match c with CRestart n => Some n | _ => None end.
Definition sel_optimize c := match c with COptimize b => Some b | _ => None end.

Definition settings_from (s : settings) (calls : list call) : settings :=
  {| s_quality := s_quality s;
     s_density := last_set sel_density calls (s_density s);
     s_sampling := last_set sel_sampling calls (s_sampling s);
     s_luma := last_set sel_luma calls (s_luma s);
     s_chroma := last_set sel_chroma calls (s_chroma s);
     s_scans := last_set sel_scans calls (s_scans s);
     s_restart := last_set sel_restart calls (s_restart s);
     s_optimize := last_set sel_optimize calls (s_optimize s);
     s_segments := s_segments s ++ flat_map segments_of calls |}.
Definition new_settings (quality : Z) : settings :=
  {| s_quality := quality; s_density := DensityNone;
     s_sampling := if quality <? 90 then F_2_2 else F_1_1;
     s_luma := QDefault; s_chroma := QDefault; s_scans := None; s_restart := 0; s_optimize := false;
     s_segments := [] |}.

Lemma settings_from_new quality calls : settings_from (new_settings quality) calls = settings_of quality calls.
Proof. reflexivity. Qed.

Lemma last_app_d {A} (x y : list A) d : last (x ++ y) d = last y (last x d).
Proof.
  revert d. induction x as [|a x IH]; intros d; [reflexivity|].
  destruct y as [|b y].
  - now rewrite app_nil_r.
  - destruct x as [|a' x].
    + cbn [app]. change (last (a :: b :: y) d) with (last (b :: y) d). clear.
      revert b. induction y as [|c y IHy]; intros b; [reflexivity|]. cbn [last] in *. apply IHy.
    + change (last ((a :: a' :: x) ++ b :: y) d) with (last ((a' :: x) ++ b :: y) d).
      rewrite IH. reflexivity.
Qed.

Lemma last_set_cons {A} (f : call -> option A) c cs d :
  last_set f (c :: cs) d = last_set f cs (match f c with Some a => a | None => d end).
Proof. unfold last_set. cbn [flat_map]. rewrite last_app_d. now destruct (f c). Qed.

Lemma settings_from_cons s c cs : settings_from s (c :: cs) = settings_from (settings_from s [c]) cs.
Proof.
  unfold settings_from. cbn [s_quality s_density s_sampling s_luma s_chroma s_scans s_restart s_optimize s_segments].
  rewrite !last_set_cons. cbn [flat_map]. rewrite app_nil_r, app_assoc. destruct c; reflexivity.
Qed.

(** ICC chunks *)
Lemma skipn_skipn {A} (l : list A) : forall a b, skipn a (skipn b l) = skipn (a + b) l.
Proof.
  induction l as [|x l IH]; intros a b; [now rewrite !skipn_nil|]. destruct b as [|b].
  - now rewrite Nat.add_0_r.
  - replace (a + S b)%nat with (S (a + b)) by lia. cbn [skipn]. apply IH.
Qed.
Lemma icc_split_fuel f1 : forall f2 data, (length data <= f1)%nat -> (length data <= f2)%nat ->
  icc_split f1 data = icc_split f2 data.
Proof.
  induction f1 as [|f1 IH]; intros f2 data H1 H2; destruct data as [|b data]; destruct f2; cbn [length] in *; try reflexivity; try lia.
  cbn [icc_split]. f_equal. assert (icc_piece <> 0%nat) by (unfold icc_piece; lia).
  apply IH; rewrite skipn_length; cbn [length]; lia.
Qed.
Lemma icc_pieces_cons data : data <> [] ->
  icc_pieces data = firstn icc_piece data :: icc_pieces (skipn icc_piece data).
Proof.
  intros Hd. unfold icc_pieces at 1. destruct data as [|b data]; [congruence|]. cbn [length icc_split].
  f_equal. apply icc_split_fuel; rewrite skipn_length; cbn [length]; unfold icc_piece; lia.
Qed.
Lemma icc_ind (Q : list Z -> Prop) : Q [] ->
  (forall d, d <> [] -> Q (skipn icc_piece d) -> Q d) -> forall d, Q d.
Proof.
  intros H0 HS d. remember (length d) as n eqn:En. revert d En.
  induction n as [n IH] using lt_wf_ind. intros d ->.
  destruct d as [|b d]; [exact H0|]. apply HS; [congruence|].
  apply (IH (length (skipn icc_piece (b :: d)))); [|reflexivity].
  rewrite skipn_length. cbn [length]. unfold icc_piece. lia.
Qed.
Lemma icc_pieces_length data : zlen (icc_pieces data) = cdiv (zlen data) 65519.
Proof.
  induction data as [|d Hd IH] using icc_ind; [reflexivity|].
  rewrite icc_pieces_cons by assumption. unfold zlen in *. cbn [length].
  rewrite Nat2Z.inj_succ, IH, skipn_length. unfold cdiv, icc_piece.
  destruct d as [|b d]; [congruence|]. cbn [length]. set (n := length d). clearbody n. clear.
  destruct (Z_le_dec (Z.of_nat (S n)) 65519); lia.
Qed.
Lemma icc_pieces_nth data : forall i, (i < length (icc_pieces data))%nat ->
  nth i (icc_pieces data) [] = firstn icc_piece (skipn (i * icc_piece) data).
Proof.
  induction data as [|d Hd IH] using icc_ind; intros i Hi.
  - cbn in Hi. lia.
  - rewrite icc_pieces_cons in * by assumption. destruct i as [|i]; [reflexivity|].
    cbn [nth length] in *. rewrite IH by lia. f_equal.
    rewrite skipn_skipn. f_equal. lia.
Qed.
Lemma chunks_pieces data : chunks MAX_CHUNK_LENGTH data = icc_pieces data.
Proof.
  unfold chunks. change MAX_CHUNK_LENGTH with 65519.
  apply (nth_ext _ _ [] []).
  - rewrite map_length. unfold zrange. rewrite map_length, seq_length.
    pose proof (icc_pieces_length data) as H. unfold cdiv in H. unfold zlen in *. lia.
  - intros n Hn. rewrite map_length in Hn. unfold zrange in *. rewrite map_length, seq_length in Hn.
    pose proof (icc_pieces_length data) as H. unfold cdiv in H.
    rewrite icc_pieces_nth by (unfold zlen in *; lia).
    rewrite map_map. rewrite (nth_indep _ _ ((fun x => firstn (Z.to_nat 65519) (skipn (Z.to_nat (Z.of_nat x * 65519)) data)) 0%nat))
      by (rewrite map_length, seq_length; exact Hn).
    rewrite (map_nth (fun x => firstn (Z.to_nat 65519) (skipn (Z.to_nat (Z.of_nat x * 65519)) data))).
    rewrite seq_nth by exact Hn. unfold icc_piece. f_equal. f_equal. lia.
Qed.
Lemma icc_piece_len data p : In p (icc_pieces data) -> zlen p <= 65519.
Proof.
  induction data as [|d Hd IH] using icc_ind; [contradiction|].
  rewrite icc_pieces_cons by assumption. intros [<-|H]; [|now apply IH].
  unfold zlen. rewrite firstn_length. unfold icc_piece. lia.
Qed.
Lemma icc_pieces_concat data : concat (icc_pieces data) = data.
Proof.
  induction data as [|d Hd IH] using icc_ind; [reflexivity|].
  rewrite icc_pieces_cons by assumption. cbn [concat]. rewrite IH. apply firstn_skipn.
Qed.

Lemma with_segments_segs l1 l2 e : with_segments l1 (with_segments l2 e) = with_segments l1 e.
Proof. reflexivity. Qed.
Lemma with_segments_same e : with_segments (e_segments e) e = e.
Proof. now destruct e. Qed.

Lemma icc_loop P n : 0 <= n < 255 -> forall ps k e, (forall p, In p ps -> zlen p <= 65519) -> (Z.of_nat (k + length ps) <= n) ->
  add_icc_loop P (combine (map Z.of_nat (seq k (length ps))) ps) n e
  = Ret (with_segments (e_segments e ++ map (fun '(i, p) => (2, icc_marker ++ [Z.of_nat i + 1; n] ++ p))
                                            (combine (seq k (length ps)) ps)) e, None).
Proof.
  intros Hn. induction ps as [|p ps IH]; intros k e Hp Hk; cbn [length seq map combine add_icc_loop].
  - rewrite app_nil_r, with_segments_same. reflexivity.
  - cbn [length] in Hk. rewrite (wrap_u_id 8) by lia. rewrite ck_u_ret by lia. cbn [bind].
    rewrite (wrap_u_id 8 n) by lia. unfold add_app_segment.
    change ((2 =? 0) || (15 <? 2)) with false. cbv iota.
    assert (Hlen : zlen (ICC_MARKER ++ [Z.of_nat k + 1] ++ [n] ++ p) <= 65533).
    { unfold zlen. rewrite !app_length. cbn [length ICC_MARKER]. specialize (Hp p (or_introl eq_refl)). unfold zlen in Hp. lia. }
    replace (65533 <? zlen (ICC_MARKER ++ [Z.of_nat k + 1] ++ [n] ++ p)) with false by lia.
    cbv iota beta.
    rewrite IH; [|intros q Hq; apply Hp; now right|lia].
    rewrite with_segments_segs. cbn [e_segments with_segments].
    rewrite <- app_assoc. reflexivity.
Qed.

Lemma add_icc_profile_ret P data e :
  add_icc_profile P data e =
  Ret (if zlen data <=? icc_limit then (with_segments (e_segments e ++ icc_segments data) e, None)
       else (e, Some (IccTooLarge (zlen data)))).
Proof.
  unfold add_icc_profile. pose proof (icc_pieces_length data) as Hl.
  rewrite ceil_div_cdiv by (unfold MAX_CHUNK_LENGTH; lia). change MAX_CHUNK_LENGTH with 65519.
  unfold icc_limit. pose proof (cdiv_spec (zlen data) 65519 ltac:(lia)) as Hc.
  assert (0 <= zlen data) by (unfold zlen; lia).
  destruct (255 <=? cdiv (zlen data) 65519) eqn:E.
  - replace (zlen data <=? 254 * 65519) with false by lia. reflexivity.
  - replace (zlen data <=? 254 * 65519) with true by lia.
    change 65519 with MAX_CHUNK_LENGTH at 1. rewrite chunks_pieces. unfold enumerate, zrange.
    replace (Z.to_nat (zlen (icc_pieces data))) with (length (icc_pieces data)) by (unfold zlen; lia).
    rewrite <- Hl. rewrite <- Hl in E. unfold icc_segments.
    rewrite icc_loop; [reflexivity|unfold zlen in *; lia|intros p Hp; now apply icc_piece_len in Hp|unfold zlen; lia].
Qed.

Lemma do_call_ret P c s : call_wf c ->
  do_call P c (enc_of s) = Ret (enc_of (settings_from s [c]), call_result c).
Proof.
  intros Hc. unfold settings_from. rewrite !last_set_cons. unfold last_set at 1 2 3 4 5 6 7.
  cbn [flat_map last].
  destruct c; cbn [do_call call_result sel_density sel_sampling sel_luma sel_chroma sel_scans sel_restart sel_optimize segments_of app];
    rewrite ?app_nil_r.
  1-4: reflexivity.
  - cbn [call_wf] in Hc. unfold set_progressive_scans, assert_.
    replace ((2 <=? n) && (n <=? 64)) with true by lia. reflexivity.
  - reflexivity.
  - reflexivity.
  - unfold add_app_segment. cbn [call_wf] in Hc. destruct Hc as [Hnr _]. unfold is_u8 in Hnr.
    unfold zlen. replace ((nr =? 0) || (15 <? nr)) with ((nr <? 1) || (15 <? nr)) by lia.
    destruct ((nr <? 1) || (15 <? nr)) eqn:E1.
    + replace ((1 <=? nr) && (nr <=? 15) && (Z.of_nat (length data) <=? 65533)) with false by lia.
      rewrite app_nil_r. reflexivity.
    + destruct (65533 <? Z.of_nat (length data)) eqn:E2.
      * replace ((1 <=? nr) && (nr <=? 15) && (Z.of_nat (length data) <=? 65533)) with false by lia.
        rewrite app_nil_r. reflexivity.
      * replace ((1 <=? nr) && (nr <=? 15) && (Z.of_nat (length data) <=? 65533)) with true by lia.
        reflexivity.
  - rewrite add_icc_profile_ret. unfold zlen. destruct (Z.of_nat (length data) <=? icc_limit) eqn:E.
    + replace (icc_limit <? Z.of_nat (length data)) with false by lia. reflexivity.
    + replace (icc_limit <? Z.of_nat (length data)) with true by lia. rewrite app_nil_r. reflexivity.
Qed.

Lemma do_calls_ret P calls : Forall call_wf calls -> forall s,
  do_calls P calls (enc_of s) = Ret (enc_of (settings_from s calls), map call_result calls).
Proof.
  induction calls as [|c cs IH]; intros Hw s; cbn [do_calls map].
  - unfold settings_from, last_set. cbn [flat_map last]. rewrite app_nil_r. now destruct s.
  - inversion Hw as [|? ? Hc Hcs]; subst. rewrite do_call_ret by assumption. cbn [bind].
    rewrite IH by assumption. cbn [bind]. now rewrite <- settings_from_cons.
Qed.

Theorem build_ret P quality calls : Forall call_wf calls ->
  build P quality calls = Ret (enc_of (settings_of quality calls), map call_result calls).
Proof.
  intros Hw. unfold build, encoder_new.
  rewrite std_luma_dc_ret, std_luma_ac_ret, std_chroma_dc_ret, std_chroma_ac_ret. cbn [bind].
  rewrite <- settings_from_new. apply (do_calls_ret P calls Hw (new_settings quality)).
Qed.

(** ** Well-formed settings *)
Record settings_wf (s : settings) : Prop := {
  sw_luma : qtype_wf (s_luma s);
  sw_chroma : qtype_wf (s_chroma s);
  sw_density : density_wf (s_density s);
  sw_scans : match s_scans s with Some n => 2 <= n <= 64 | None => True end;
  sw_restart : is_u16 (s_restart s);
  sw_segs : Forall seg_ok (s_segments s)
}.

Lemma last_set_inv {A} (Q : A -> Prop) f calls d :
  (forall c a, In c calls -> f c = Some a -> Q a) -> Q d -> Q (last_set f calls d).
Proof.
  revert d. induction calls as [|c cs IH]; intros d Hf Hd; [exact Hd|].
  rewrite last_set_cons. apply IH.
  - intros c' a Hc. apply Hf. now right.
  - destruct (f c) eqn:E; [|exact Hd]. apply (Hf c); [now left|exact E].
Qed.

Lemma firstn_forall {A} (Q : A -> Prop) n l : Forall Q l -> Forall Q (firstn n l).
Proof. intros H. rewrite <- (firstn_skipn n l) in H. apply Forall_app in H. apply H. Qed.
Lemma skipn_forall {A} (Q : A -> Prop) n l : Forall Q l -> Forall Q (skipn n l).
Proof. intros H. rewrite <- (firstn_skipn n l) in H. apply Forall_app in H. apply H. Qed.
Lemma icc_piece_bytes data p : Forall is_u8 data -> In p (icc_pieces data) -> Forall is_u8 p.
Proof.
  induction data as [|d Hd IH] using icc_ind; intros Hb; [contradiction|].
  rewrite icc_pieces_cons by assumption. intros [<-|H].
  - now apply firstn_forall.
  - apply IH; [now apply skipn_forall|exact H].
Qed.

Lemma icc_segments_ok data : Forall is_u8 data -> zlen data <= icc_limit -> Forall seg_ok (icc_segments data).
Proof.
  intros Hb Hl. unfold icc_segments. apply Forall_forall. intros s Hs.
  apply in_map_iff in Hs as ([i p] & <- & Hip). pose proof (in_combine_l _ _ _ _ Hip) as Hi.
  apply in_combine_r in Hip as Hp. apply in_seq in Hi.
  pose proof (icc_pieces_length data) as Hn. pose proof (cdiv_spec (zlen data) 65519 ltac:(lia)) as Hc.
  assert (0 <= zlen data) by (unfold zlen; lia). unfold icc_limit in Hl.
  assert (Z.of_nat (length (icc_pieces data)) <= 254) by (unfold zlen in *; lia).
  pose proof (icc_piece_len data p Hp) as Hpl.
  split; [cbn; lia|]. cbn [fst snd]. split.
  - unfold zlen in *. rewrite !app_length. cbn [length icc_marker]. lia.
  - unfold bytes_ok. apply Forall_app. split; [repeat constructor; lia|].
    apply Forall_app. split; [repeat constructor; lia|].
    exact (icc_piece_bytes _ _ Hb Hp).
Qed.

Lemma settings_of_wf quality calls : Forall call_wf calls -> settings_wf (settings_of quality calls).
Proof.
  intros Hw. rewrite Forall_forall in Hw. rewrite <- settings_from_new.
  constructor; unfold settings_from; cbn [s_luma s_chroma s_density s_scans s_restart s_segments new_settings].
  - apply last_set_inv; [|exact I]. intros c a Hc Ha. specialize (Hw c Hc). destruct c; inversion Ha; subst. apply Hw.
  - apply last_set_inv; [|exact I]. intros c a Hc Ha. specialize (Hw c Hc). destruct c; inversion Ha; subst. apply Hw.
  - apply last_set_inv; [|exact I]. intros c a Hc Ha. specialize (Hw c Hc). destruct c; inversion Ha; subst. apply Hw.
  - apply (last_set_inv (fun o => match o with Some n => 2 <= n <= 64 | None => True end)); [|exact I].
    intros c a Hc Ha. specialize (Hw c Hc). destruct c; inversion Ha; subst; [destruct b; [lia|exact I]|exact Hw].
  - apply last_set_inv; [|unfold is_u16; lia]. intros c a Hc Ha. specialize (Hw c Hc). destruct c; inversion Ha; subst. apply Hw.
  - cbn [app]. apply Forall_flat_map. apply Forall_forall. intros c Hc. specialize (Hw c Hc).
    destruct c; cbn [segments_of call_wf] in *; try constructor.
    + destruct ((1 <=? nr) && (nr <=? 15) && (Z.of_nat (length data) <=? 65533)) eqn:E; repeat constructor; cbn [fst snd]; unfold zlen; try lia.
      exact (proj2 Hw).
    + destruct (Z.of_nat (length data) <=? icc_limit) eqn:E; [|constructor].
      apply icc_segments_ok; [exact Hw|unfold zlen; lia].
Qed.

Lemma enc_of_ok s : settings_wf s -> enc_ok (enc_of s) (s_luma s) (s_chroma s).
Proof.
  intros Hw. constructor; cbn [enc_of e_components e_qtypes e_huff e_restart e_prog e_segments]; try reflexivity.
  - pose proof (sw_luma _ Hw). destruct (s_luma s); cbn [qtype_ok qtype_wf] in *; try exact I; exact H.
  - pose proof (sw_chroma _ Hw). destruct (s_chroma s); cbn [qtype_ok qtype_wf] in *; try exact I; exact H.
  - pose proof (sw_restart _ Hw) as H. unfold is_u16 in H. destruct (s_restart s =? 0) eqn:E; [exact I|lia].
  - apply (sw_scans _ Hw).
  - apply (sw_segs _ Hw).
Qed.
