(** Marker segments: what the writer emits is what the decoder's marker loop reads. *)
From Verif Require Export PInter.
From Verif Require Import T81.
From Coq Require Import ZifyBool ZifyNat.
Local Ltac Zify.zify_post_hook ::= Z.div_mod_to_equations.

Lemma bytes_ok_app2 a b : bytes_ok a -> bytes_ok b -> bytes_ok (a ++ b).
Proof. intros. now apply bytes_ok_app. Qed.

Definition parses (st : state) (l : list Z) (st' : state) : Prop :=
  forall fuel, (length l <= fuel)%nat -> decode_segments fuel st l = Some st'.
Definition marker_start (l : list Z) : Prop := exists mk r, l = 255 :: mk :: r /\ mk <> 0.

(** [dec m a st st']: the program [m] returns [a] and emits bytes that take the decoder from [st] to
    [st']. *)
Definition dec {A} (m : prog A) (a : A) (st st' : state) : Prop :=
  exists o, emits m o a /\ bytes_ok o /\ (o = [] \/ marker_start o) /\
    forall rest stf, marker_start rest -> parses st' rest stf -> parses st (o ++ rest) stf.

Lemma dec_ret {A} (a : A) st : dec (Ret a) a st st.
Proof.
  exists []. split; [apply emits_ret|]. split; [constructor|]. split; [now left|]. intros rest stf _ H. exact H.
Qed.

Lemma dec_bind {A B} (m : prog A) (f : A -> prog B) a b st st1 st2 :
  dec m a st st1 -> dec (f a) b st1 st2 -> dec (bind m f) b st st2.
Proof.
  intros (o1 & E1 & B1 & M1 & H1) (o2 & E2 & B2 & M2 & H2). exists (o1 ++ o2).
  split; [eapply emits_bind; eassumption|]. split; [now apply bytes_ok_app2|]. split.
  - destruct M1 as [->|(mk & r & -> & Hm)]; [exact M2|]. right. exists mk, (r ++ o2). now split.
  - intros rest stf Hr Hp. rewrite <- app_assoc. apply H1; [|now apply H2].
    destruct M2 as [->|(mk & r & -> & Hm)]; [exact Hr|]. exists mk, (r ++ rest). now split.
Qed.

Lemma dec_bind_emits {A B} (m : prog A) (f : A -> prog B) a b st st1 :
  emits m [] a -> dec (f a) b st st1 -> dec (bind m f) b st st1.
Proof.
  intros E1 (o2 & E2 & B2 & M2 & H2). exists o2.
  split; [eapply emits_bind0; eassumption|]. auto.
Qed.

Lemma dec_ext {A} (m m' : prog A) a st st1 :
  exec m = exec m' -> dec m' a st st1 -> dec m a st st1.
Proof. intros E (o & H). exists o. unfold emits in *. now rewrite E. Qed.

Lemma dec_foldM {A X} (f : A -> X -> prog A) a l : forall (sts : list X -> state) pre,
  (forall pre x post, l = pre ++ x :: post -> dec (f a x) a (sts pre) (sts (pre ++ [x]))) ->
  forall post, l = pre ++ post -> dec (foldM f post a) a (sts pre) (sts l).
Proof.
  intros sts pre Hf post. revert pre. induction post as [|x post IH]; intros pre E.
  - rewrite app_nil_r in E. subst. apply dec_ret.
  - cbn [foldM]. eapply dec_bind; [eapply Hf; exact E|]. apply IH. now rewrite <- app_assoc.
Qed.

(** ** Generic segments *)
Definition seg (m : Z) (p : list Z) : list Z := 255 :: m :: be_bytes 2 (zlen p + 2) ++ p.

Lemma be2 v : 0 <= v < 65536 -> be_bytes 2 v = [v / 256; v mod 256].
Proof.
  intros Hv. cbn [be_bytes]. change (2 ^ (8 * Z.of_nat 1)) with 256. change (2 ^ (8 * Z.of_nat 0)) with 1.
  rewrite Z.div_1_r. rewrite Z.mod_small by lia. reflexivity.
Qed.

Lemma take_app {A} (a b : list A) : take (length a) (a ++ b) = Some (a, b).
Proof. induction a as [|x a IH]; cbn; [now destruct b|]. now rewrite IH. Qed.
Lemma take_app_n {A} n (a b : list A) : length a = n -> take n (a ++ b) = Some (a, b).
Proof. intros <-. apply take_app. Qed.

Lemma take_all {A} n (a : list A) : length a = n -> take n a = Some (a, []).
Proof. intros H. rewrite <- (app_nil_r a) at 1. now apply take_app_n. Qed.

Lemma segment_seg p rest : zlen p <= 65533 ->
  segment (be_bytes 2 (zlen p + 2) ++ p ++ rest) = Some (p, rest).
Proof.
  intros Hp. pose proof (zlen_nonneg p). rewrite be2 by lia. cbn [app]. unfold segment.
  replace (256 * ((zlen p + 2) / 256) + (zlen p + 2) mod 256) with (zlen p + 2) by lia.
  replace (2 <=? zlen p + 2) with true by lia. apply take_app_n. unfold zlen. lia.
Qed.

Lemma seg_bytes_ok m p : 0 <= m < 256 -> bytes_ok p -> bytes_ok (seg m p).
Proof.
  intros Hm Hp. unfold seg. constructor; [lia|]. constructor; [lia|]. apply bytes_ok_app2; [apply be_bytes_ok|assumption].
Qed.

Lemma seg_length m p : (2 <= length (seg m p))%nat.
Proof. unfold seg. cbn [length]. lia. Qed.

(** A program that emits one segment. *)
Lemma dec_seg {A} (prg : prog A) a m p st st' :
  emits prg (seg m p) a -> 1 <= m < 256 -> bytes_ok p ->
  (forall rest stf fuel, decode_segments fuel st' rest = Some stf ->
      decode_segments (S fuel) st (seg m p ++ rest) = Some stf) ->
  dec prg a st st'.
Proof.
  intros He Hm Hp Hd. exists (seg m p). split; [exact He|]. split; [apply seg_bytes_ok; [lia|exact Hp]|].
  split; [right; unfold seg; eexists _, _; split; [reflexivity|lia]|].
  intros rest stf _ Hpa fuel Hf. pose proof (seg_length m p). rewrite app_length in Hf.
  destruct fuel as [|fuel]; [lia|]. apply Hd. apply Hpa. lia.
Qed.

Ltac seg_open := unfold seg; rewrite <- ?app_comm_cons, <- ?app_assoc; cbn [decode_segments];
  change (255 =? 255) with true; cbn [andb orb].

(** *** APPn *)
Definition add_app (st : state) (a : Z * list Z) : state :=
  {| st_frame := st_frame st; st_qt := st_qt st; st_dc := st_dc st; st_ac := st_ac st;
     st_ri := st_ri st; st_app := st_app st ++ [a]; st_log := st_log st; st_scans := st_scans st |}.

Lemma dec_app {A} (prg : prog A) a nr p st :
  emits prg (seg (224 + nr) p) a -> 0 <= nr <= 15 -> zlen p <= 65533 -> bytes_ok p ->
  dec prg a st (add_app st (nr, p)).
Proof.
  intros He Hn Hl Hp. eapply dec_seg; [exact He|lia|exact Hp|].
  intros rest stf fuel Hd. seg_open.
  replace (224 + nr =? 217) with false by lia. replace (224 + nr =? 218) with false by lia.
  replace ((224 <=? 224 + nr) && (224 + nr <=? 239)) with true by lia.
  rewrite segment_seg by assumption. replace (224 + nr - 224) with nr by lia. exact Hd.
Qed.

Lemma emits_write_segment P nr data : zlen data <= 65533 ->
  emits (write_segment P (APP nr) data) (seg (224 + nr) data) tt.
Proof.
  intros Hl. pose proof (zlen_nonneg data). unfold write_segment, seg.
  change (255 :: 224 + nr :: be_bytes 2 (zlen data + 2) ++ data)
    with ([255; marker_byte (APP nr)] ++ be_bytes 2 (zlen data + 2) ++ data).
  eapply emits_bind; [apply emits_write_all|].
  rewrite wrap_u_id by lia.
  eapply emits_bind0; [apply emits_ck_u; lia|].
  eapply emits_bind; [apply emits_write_all|apply emits_write_all].
Qed.

(** *** JFIF header *)
Definition density_bytes (d : density) : list Z :=
  match d with
  | DensityNone => 0 :: be_bytes 2 1 ++ be_bytes 2 1
  | DensityInch x y => 1 :: be_bytes 2 x ++ be_bytes 2 y
  | DensityCentimeter x y => 2 :: be_bytes 2 x ++ be_bytes 2 y
  end.
Definition jfif_payload (d : density) : list Z :=
  [0x4A; 0x46; 0x49; 0x46; 0; 1; 2] ++ density_bytes d ++ [0; 0].

Lemma emits_write_header d : emits (write_header d) (seg 224 (jfif_payload d)) tt.
Proof. destruct d; reflexivity. Qed.
Lemma jfif_payload_ok d : zlen (jfif_payload d) = 14 /\ bytes_ok (jfif_payload d).
Proof.
  split; [destruct d; reflexivity|].
  apply bytes_ok_app2; [repeat constructor; lia|]. apply bytes_ok_app2; [|repeat constructor; lia].
  destruct d; cbn [density_bytes]; (constructor; [lia|]; apply bytes_ok_app2; apply be_bytes_ok).
Qed.

(** *** DQT *)
Definition set_qt (st : state) (i : nat) (vs : list Z) : state :=
  {| st_frame := st_frame st; st_qt := set_nth (st_qt st) i (Some vs); st_dc := st_dc st;
     st_ac := st_ac st; st_ri := st_ri st; st_app := st_app st; st_log := st_log st;
     st_scans := st_scans st |}.

Lemma emits_write_q dest q : 0 <= dest < 4 ->
  emits (write_quantization_segment dest q) (seg 219 (dest :: map (qt_get q) ZIGZAG)) tt.
Proof.
  intros Hd. unfold write_quantization_segment.
  eapply emits_bind0; [apply emits_assert; lia|]. unfold seg.
  replace (be_bytes 2 (zlen (dest :: map (qt_get q) ZIGZAG) + 2)) with (be_bytes 2 (2 + 1 + 64)) by reflexivity.
  change (255 :: 219 :: be_bytes 2 (2 + 1 + 64) ++ dest :: map (qt_get q) ZIGZAG) with
    ([255; 219] ++ be_bytes 2 (2 + 1 + 64) ++ [dest] ++ map (qt_get q) ZIGZAG).
  eapply emits_bind; [apply emits_write_all|].
  eapply emits_bind; [apply emits_write_all|].
  eapply emits_bind; [apply emits_write_all|].
  generalize ZIGZAG as l. induction l as [|z l IH]; [apply emits_ret|].
  cbn [foldM map]. change (qt_get q z :: map (qt_get q) l) with ([qt_get q z] ++ map (qt_get q) l).
  eapply emits_bind; [apply emits_write_all|exact IH].
Qed.

Lemma dec_write_q dest q st : 0 <= dest < 4 -> nth_error (st_qt st) (Z.to_nat dest) = Some None ->
  Forall (fun z => 0 < qt_get q z) ZIGZAG ->
  dec (write_quantization_segment dest q) tt st (set_qt st (Z.to_nat dest) (map (qt_get q) ZIGZAG)).
Proof.
  intros Hd Hs Hq. eapply dec_seg; [now apply emits_write_q|lia| |].
  { constructor; [lia|]. apply Forall_forall. intros v Hv. apply in_map_iff in Hv as (z & <- & _).
    unfold qt_get, wrap_u. change (2 ^ 8) with 256. lia. }
  intros rest stf fuel Hdec. seg_open. cbn [Z.eqb Z.leb Z.compare Pos.eqb Pos.compare Pos.compare_cont andb orb].
  rewrite segment_seg by (unfold zlen; cbn [length]; rewrite map_length; cbn; lia).
  set (vs := map (qt_get q) ZIGZAG) in *.
  assert (Hl : length vs = 64%nat) by (unfold vs; rewrite map_length; reflexivity).
  assert (E : parse_dqt (length (dest :: vs)) (dest :: vs) (st_qt st)
    = Some (set_nth (st_qt st) (Z.to_nat dest) (Some vs))).
  { cbn [length parse_dqt]. replace ((0 <=? dest) && (dest <? 4)) with true by lia.
    rewrite (take_all 64 vs Hl).
    replace (forallb (fun v => 0 <? v) vs) with true.
    2:{ symmetry. apply forallb_forall. intros v Hv. apply in_map_iff in Hv as (z & <- & Hz).
        rewrite Forall_forall in Hq. specialize (Hq z Hz). lia. }
    rewrite Hs. destruct (length vs); reflexivity. }
  rewrite E. exact Hdec.
Qed.

(** *** DHT *)
Definition set_dht (st : state) (class : Z) (i : nat) (t : table) : state :=
  {| st_frame := st_frame st; st_qt := st_qt st;
     st_dc := if class =? 0 then set_nth (st_dc st) i (Some t) else st_dc st;
     st_ac := if class =? 0 then st_ac st else set_nth (st_ac st) i (Some t);
     st_ri := st_ri st; st_app := st_app st; st_log := st_log st;
     st_scans := st_scans st |}.

(** A table the decoder accepts. *)
Record valid_tab (t : htab) (tb : table) : Prop := {
  vt_build : build_table (h_length t) (h_values t) = Some tb;
  vt_lens : bytes_ok (h_length t);
  vt_vals : bytes_ok (h_values t)
}.

Lemma canonical_codes_length counts : forall L c cs, canonical_codes L c counts = Some cs ->
  Z.of_nat (length cs) = fold_right Z.add 0 counts.
Proof.
  induction counts as [|n counts IH]; intros L c cs H; cbn [canonical_codes fold_right] in *.
  - inversion H. reflexivity.
  - destruct ((0 <=? n) && ((n =? 0) || (c + n <? 2 ^ Z.of_nat L))) eqn:E; [|discriminate].
    destruct (canonical_codes (S L) (2 * (c + n)) counts) as [cs'|] eqn:E2; [|discriminate].
    inversion H; subst. rewrite app_length, map_length, seq_length. specialize (IH _ _ _ E2).
    apply andb_prop in E as [E _]. lia.
Qed.

Lemma valid_tab_lengths t tb : valid_tab t tb ->
  length (h_length t) = 16%nat /\ zlen (h_values t) <= 256 /\
  Z.to_nat (fold_right Z.add 0 (h_length t)) = length (h_values t).
Proof.
  intros [Hb Hl Hv]. unfold build_table in Hb.
  destruct ((length (h_length t) =? 16)%nat && distinct (h_values t)) eqn:E; [|discriminate].
  apply andb_prop in E as [E1 E2].
  destruct (canonical_codes 1 0 (h_length t)) as [cs|] eqn:E3; [|discriminate].
  destruct (length cs =? length (h_values t))%nat eqn:E4; [|discriminate].
  apply canonical_codes_length in E3. split; [lia|]. split; [|lia].
  pose proof (NoDup_bytes_length _ (distinct_NoDup _ E2) Hv). unfold zlen. lia.
Qed.

Lemma emits_write_h P class dest t tb : valid_tab t tb -> class = 0 \/ class = 1 -> dest = 0 \/ dest = 1 ->
  emits (write_huffman_segment P class dest t)
        (seg 196 ((16 * class + dest) :: h_length t ++ h_values t)) tt.
Proof.
  intros Hv Hc Hd. destruct (valid_tab_lengths t tb Hv) as (H16 & H256 & _).
  unfold write_huffman_segment. eapply emits_bind0; [apply emits_assert; lia|]. unfold seg.
  pose proof (zlen_nonneg (h_values t)).
  replace (zlen (16 * class + dest :: h_length t ++ h_values t) + 2) with (2 + 1 + 16 + wrap_u 16 (zlen (h_values t))).
  2:{ rewrite wrap_u_id by lia. unfold zlen in *. cbn [length]. rewrite app_length. lia. }
  change (255 :: 196 :: be_bytes 2 (2 + 1 + 16 + wrap_u 16 (zlen (h_values t))) ++ 16 * class + dest :: h_length t ++ h_values t)
   with ([255; 196] ++ be_bytes 2 (2 + 1 + 16 + wrap_u 16 (zlen (h_values t))) ++ [16 * class + dest] ++ h_length t ++ h_values t).
  eapply emits_bind; [apply emits_write_all|].
  eapply emits_bind0; [apply emits_ck_u; rewrite wrap_u_id by lia; lia|].
  eapply emits_bind; [apply emits_write_all|].
  replace (Z.lor (wrap_u 8 (class * 2 ^ 4)) dest) with (16 * class + dest)
    by (destruct Hc as [->| ->], Hd as [->| ->]; reflexivity).
  eapply emits_bind; [apply emits_write_all|].
  eapply emits_bind; [apply emits_write_all|apply emits_write_all].
Qed.

Lemma dec_write_h P class dest t tb st : valid_tab t tb -> class = 0 \/ class = 1 -> dest = 0 \/ dest = 1 ->
  nth_error (if class =? 0 then st_dc st else st_ac st) (Z.to_nat dest) = Some None ->
  dec (write_huffman_segment P class dest t) tt st (set_dht st class (Z.to_nat dest) tb).
Proof.
  intros Hv Hc Hd Hs. destruct (valid_tab_lengths t tb Hv) as (H16 & H256 & Hsum).
  eapply dec_seg; [eapply emits_write_h; eassumption|lia| |].
  { constructor; [lia|]. apply bytes_ok_app2; apply Hv. }
  intros rest stf fuel Hdec. seg_open. cbn [Z.eqb Z.leb Z.compare Pos.eqb Pos.compare Pos.compare_cont andb orb].
  set (p := (16 * class + dest) :: h_length t ++ h_values t).
  change (16 * class + dest :: (h_length t ++ h_values t)) with p.
  rewrite segment_seg.
  2:{ unfold p, zlen in *. cbn [length]. rewrite app_length. lia. }
  assert (E : parse_dht (length p) p (st_dc st) (st_ac st) =
    Some (if class =? 0 then set_nth (st_dc st) (Z.to_nat dest) (Some tb) else st_dc st,
          if class =? 0 then st_ac st else set_nth (st_ac st) (Z.to_nat dest) (Some tb))).
  { unfold p. cbn [length parse_dht].
    replace ((16 * class + dest) / 16) with class by lia.
    replace ((16 * class + dest) mod 16) with dest by lia.
    replace (((class =? 0) || (class =? 1)) && (dest <? 4)) with true by lia.
    rewrite (take_app_n 16) by assumption.
    rewrite take_all by (symmetry; exact Hsum).
    rewrite (vt_build _ _ Hv). rewrite Hs.
    destruct (length (h_length t ++ h_values t)), (class =? 0); reflexivity. }
  rewrite E. exact Hdec.
Qed.

(** *** DRI *)
Definition set_ri (st : state) (ri : Z) : state :=
  {| st_frame := st_frame st; st_qt := st_qt st; st_dc := st_dc st; st_ac := st_ac st;
     st_ri := ri; st_app := st_app st; st_log := st_log st; st_scans := st_scans st |}.
Lemma dec_write_dri ri st : 0 < ri < 65536 -> st_ri st = 0 -> st_scans st = [] -> dec (write_dri ri) tt st (set_ri st ri).
Proof.
  intros Hr E0 E1. apply (dec_seg (write_dri ri) tt 221 (be_bytes 2 ri)).
  - unfold seg. change (zlen (be_bytes 2 ri) + 2) with 4.
    change (255 :: 221 :: be_bytes 2 4 ++ be_bytes 2 ri) with ([255; 221] ++ be_bytes 2 4 ++ be_bytes 2 ri).
    unfold write_dri. eapply emits_bind; [apply emits_write_all|].
    eapply emits_bind; [apply emits_write_all|apply emits_write_all].
  - lia.
  - apply be_bytes_ok.
  - intros rest stf fuel Hdec. seg_open. cbn [Z.eqb Z.leb Z.compare Pos.eqb Pos.compare Pos.compare_cont andb orb].
    rewrite segment_seg by (unfold zlen; rewrite be_bytes_length; lia).
    rewrite (be2 ri) by lia. replace (256 * (ri / 256) + ri mod 256) with ri by lia.
    unfold set_ri in Hdec. rewrite E1 in *. rewrite E0. replace (0 <? ri) with true by lia. exact Hdec.
Qed.

(** *** SOF *)
Definition set_frame (st : state) (f : frame) : state :=
  {| st_frame := Some f; st_qt := st_qt st; st_dc := st_dc st; st_ac := st_ac st;
     st_ri := st_ri st; st_app := st_app st; st_log := st_log st; st_scans := st_scans st |}.

Definition frame_comp_bytes (c : component) : list Z :=
  [c_id c; 16 * c_h c + c_v c; c_qt c].
Definition sof_payload (W H : Z) (cs : list component) : list Z :=
  8 :: be_bytes 2 H ++ be_bytes 2 W ++ [zlen cs] ++ flat_map frame_comp_bytes cs.

(** What the frame header needs of its components. *)
Definition comp_small (c : component) : Prop :=
  0 <= c_id c < 256 /\ 1 <= c_h c <= 4 /\ 1 <= c_v c <= 4 /\ 0 <= c_qt c <= 1 /\ 0 <= c_dc c <= 1 /\ 0 <= c_ac c <= 1.

Lemma comps_small cs mh mv : comps_ok cs mh mv -> Forall comp_small cs.
Proof.
  intros Hc. apply Forall_forall. intros c Hin. apply In_nth_error in Hin as (i & Hi).
  assert (Hlt : (i < length cs)%nat) by (apply nth_error_Some; rewrite Hi; discriminate).
  pose proof (cs_comp _ _ _ Hc _ _ Hi) as [H1 H2 H3 H4 H5 H6].
  pose proof (cs_mh _ _ _ Hc). pose proof (cs_mv _ _ _ Hc). pose proof (cs_len _ _ _ Hc).
  unfold comp_small. lia.
Qed.

Lemma lor_nibble h v : 0 <= h < 8 -> 0 <= v < 8 -> Z.lor (wrap_u 8 (h * 2 ^ 4)) v = 16 * h + v.
Proof.
  intros Hh Hv.
  assert (E : h = 0 \/ h = 1 \/ h = 2 \/ h = 3 \/ h = 4 \/ h = 5 \/ h = 6 \/ h = 7) by lia.
  assert (E' : v = 0 \/ v = 1 \/ v = 2 \/ v = 3 \/ v = 4 \/ v = 5 \/ v = 6 \/ v = 7) by lia.
  decompose [or] E; decompose [or] E'; subst; reflexivity.
Qed.

Lemma emits_write_sof W H cs p : Forall comp_small cs -> (length cs <= 4)%nat ->
  emits (write_frame_header W H cs p) (seg (if p then 194 else 192) (sof_payload W H cs)) tt.
Proof.
  intros Hc Hl. unfold write_frame_header, seg.
  replace (zlen (sof_payload W H cs) + 2) with (2 + 1 + 2 + 2 + 1 + zlen cs * 3).
  2:{ unfold sof_payload, zlen. cbn [length]. rewrite !app_length, !be_bytes_length. cbn [length].
      assert (E : length (flat_map frame_comp_bytes cs) = (3 * length cs)%nat).
      { clear. induction cs as [|c cs IH]; [reflexivity|]. cbn [flat_map frame_comp_bytes app length]. lia. }
      rewrite E. lia. }
  change (255 :: (if p then 194 else 192) :: be_bytes 2 (2 + 1 + 2 + 2 + 1 + zlen cs * 3) ++ sof_payload W H cs)
  with ([255; (if p then 194 else 192)] ++ be_bytes 2 (2 + 1 + 2 + 2 + 1 + zlen cs * 3) ++
       [8] ++ be_bytes 2 H ++ be_bytes 2 W ++ [zlen cs] ++ flat_map frame_comp_bytes cs).
  eapply emits_bind; [destruct p; apply emits_write_all|].
  do 5 (eapply emits_bind; [apply emits_write_all|]).
  clear Hl. induction cs as [|c cs IH]; [apply emits_ret|]. inversion Hc as [|? ? Hs Hc']; subst.
  cbn [foldM flat_map]. eapply emits_bind; [|apply IH; assumption].
  unfold frame_comp_bytes.
  change [c_id c; 16 * c_h c + c_v c; c_qt c] with ([c_id c] ++ [16 * c_h c + c_v c] ++ [c_qt c]).
  eapply emits_bind; [apply emits_write_all|].
  unfold comp_small in Hs. rewrite lor_nibble by lia.
  eapply emits_bind; [apply emits_write_all|apply emits_write_all].
Qed.

Lemma parse_comps_ok cs : Forall comp_small cs ->
  parse_comps (length cs) (flat_map frame_comp_bytes cs) = Some (map comp_of cs).
Proof.
  induction cs as [|c cs IH]; intros Hc; [reflexivity|]. inversion Hc as [|? ? Hs Hc']; subst.
  unfold comp_small in Hs. cbn [length flat_map frame_comp_bytes app parse_comps map].
  replace ((16 * c_h c + c_v c) / 16) with (c_h c) by lia.
  replace ((16 * c_h c + c_v c) mod 16) with (c_v c) by lia.
  replace ((1 <=? c_h c) && (c_h c <=? 4) && (1 <=? c_v c) && (c_v c <=? 4) && (c_qt c <? 4)) with true by lia.
  rewrite IH by assumption. reflexivity.
Qed.

Lemma comps_distinct cs mh mv : comps_ok cs mh mv -> distinct (map co_id (map comp_of cs)) = true.
Proof.
  intros Hc. apply NoDup_distinct. rewrite map_map. apply NoDup_nth_error. intros i j Hi E.
  rewrite map_length in Hi.
  assert (Hj : (j < length cs)%nat).
  { rewrite nth_error_map in E. destruct (nth_error cs i) eqn:Ei.
    - rewrite nth_error_map in E. destruct (nth_error cs j) eqn:Ej; [|discriminate].
      apply nth_error_Some. rewrite Ej. discriminate.
    - apply nth_error_None in Ei. lia. }
  destruct (nth_error cs i) as [a|] eqn:Ei; [|apply nth_error_None in Ei; lia].
  destruct (nth_error cs j) as [b|] eqn:Ej; [|apply nth_error_None in Ej; lia].
  rewrite !nth_error_map, Ei, Ej in E. cbn in E. inversion E as [E'].
  rewrite (ck_id _ _ _ _ _ (cs_comp _ _ _ Hc _ _ Ei)), (ck_id _ _ _ _ _ (cs_comp _ _ _ Hc _ _ Ej)) in E'. lia.
Qed.

Lemma dec_write_sof W H cs mh mv p st : comps_ok cs mh mv -> 1 <= W <= 65535 -> 1 <= H <= 65535 ->
  st_frame st = None ->
  dec (write_frame_header W H cs p) tt st (set_frame st (frame_of p W H cs)).
Proof.
  intros Hc HW HH Hs. pose proof (comps_small _ _ _ Hc) as Hsm.
  assert (Hl : (1 <= length cs <= 4)%nat) by (destruct (cs_len _ _ _ Hc) as [E|[E|E]]; lia).
  eapply dec_seg; [apply emits_write_sof; [exact Hsm|lia]|destruct p; lia| |].
  { unfold sof_payload. constructor; [lia|]. apply bytes_ok_app2; [apply be_bytes_ok|].
    apply bytes_ok_app2; [apply be_bytes_ok|]. constructor; [unfold zlen; lia|].
    clear - Hsm. induction cs as [|c cs IH]; [constructor|]. inversion Hsm as [|? ? Hs Hc']; subst.
    cbn [flat_map frame_comp_bytes app]. unfold comp_small in Hs.
    constructor; [lia|]. constructor; [lia|]. constructor; [lia|]. now apply IH. }
  intros rest stf fuel Hdec. seg_open.
  assert (Em : forall m, (if p then 194 else 192) = m -> m <> 217 /\ m <> 218 /\ m <> 219 /\ m <> 196 /\ m < 224 /\ (m = 192 \/ m = 194)).
  { intros m <-. destruct p; lia. }
  destruct (Em _ eq_refl) as (E1 & E2 & E3 & E4 & E5 & E6). clear Em.
  assert (Epm : ((if p then 194 else 192) =? 194) = p) by now destruct p.
  set (m := if p then 194 else 192) in *.
  replace (m =? 217) with false by lia. replace (m =? 218) with false by lia.
  replace ((224 <=? m) && (m <=? 239)) with false by lia.
  replace (m =? 219) with false by lia. replace (m =? 196) with false by lia.
  replace ((m =? 192) || (m =? 194)) with true by lia.
  rewrite segment_seg.
  2:{ unfold sof_payload, zlen. cbn [length]. rewrite !app_length, !be_bytes_length. cbn [length].
      assert (E : length (flat_map frame_comp_bytes cs) = (3 * length cs)%nat).
      { clear. induction cs as [|c cs IH]; [reflexivity|]. cbn [flat_map frame_comp_bytes app length]. lia. }
      rewrite E. lia. }
  rewrite Epm, Hs. unfold sof_payload. rewrite !be2 by lia. cbn [app parse_sof].
  replace ((8 =? 8) && (1 <=? zlen cs) && (zlen cs <=? 4)) with true by (unfold zlen; lia).
  unfold zlen at 1. rewrite Nat2Z.id, parse_comps_ok by assumption.
  rewrite (comps_distinct cs mh mv Hc).
  replace (256 * (H / 256) + H mod 256) with H by lia. replace (256 * (W / 256) + W mod 256) with W by lia.
  replace ((1 <=? H) && (1 <=? W) && true) with true by lia. cbn [is_some negb]. exact Hdec.
Qed.
