(** Scans: byte stuffing, restart markers, Huffman tables, progression (C05, C06, C19, C27, C28). *)
From Verif Require Import PRound PParts PCode SFile ThmRound T81.
From Coq Require Import ZifyBool ZifyNat.

(** ** The structure of every file (C05, C06) *)
Lemma file_structure P quality calls data w h c :
  std_config quality calls -> valid_input P data w h c ->
  let s := settings_of quality calls in
  exists bytes ps,
    exec (run_encode P quality calls data w h c) = (bytes, Ok tt) /\ Forall is_u8 bytes /\
    bytes = render_file ps /\
    Forall2 (scan_part (frame_for s (spec_color c) w h) (s_restart s)) (scans ps) (scan_script s (spec_color c)) /\
    app_segments ps = apps_for s (spec_color c) /\
    dri_segments ps = (if s_restart s =? 0 then [] else [u16b (s_restart s)]).
Proof.
  intros C V s. destruct (C01_round_trip P quality calls data w h c C V) as (bytes & j & E & B & D & A).
  destruct (decode_structure _ _ D) as (ps & E2 & F & Ap & Dr).
  exists bytes, ps. split; [exact E|]. split; [exact B|]. split; [exact E2|].
  subst s. rewrite <- (da_frame _ _ _ _ _ _ _ A), <- (da_restart _ _ _ _ _ _ _ A), <- (da_scans _ _ _ _ _ _ _ A),
          <- (da_apps _ _ _ _ _ _ _ A).
  auto.
Qed.

Lemma scan_bytes_ok ps : Forall is_u8 (render_file ps) ->
  Forall (fun hd => byte_list (coded_data 0 (snd hd))) (scans ps).
Proof.
  unfold render_file. intros H. apply Forall_app in H as [_ H]. apply Forall_app in H as [H _].
  induction ps as [|[m p|hd ds] ps IH]; [constructor| |]; cbn [flat_map render] in H; apply Forall_app in H as [H1 H2].
  - now apply IH.
  - unfold scans. cbn [flat_map app]. constructor; [|now apply IH].
    apply Forall_app in H1 as [_ H1]. apply Forall_app in H1 as [_ H1]. apply Forall_app in H1 as [_ H1]. exact H1.
Qed.

(** C05: the file is a sequence of marker segments and scans, and in the entropy-coded data of every
    scan each byte 255 is followed by 0 or starts a restart marker. *)
Theorem C05_no_stray_markers : forall P quality calls data w h c,
  std_config quality calls -> valid_input P data w h c ->
  exists bytes ps,
    exec (run_encode P quality calls data w h c) = (bytes, Ok tt) /\ bytes = render_file ps /\
    length (scans ps) = length (scan_script (settings_of quality calls) (spec_color c)) /\
    forall hd, In hd (scans ps) -> no_stray_marker (coded_data 0 (snd hd)) = true.
Proof.
  intros P quality calls data w h c C V.
  destruct (file_structure P quality calls data w h c C V) as (bytes & ps & E & B & E2 & F & _).
  exists bytes, ps. split; [exact E|]. split; [exact E2|]. split; [exact (F2_length _ _ _ F)|].
  intros hd Hin. apply no_stray_coded. rewrite E2 in B. apply scan_bytes_ok in B.
  rewrite Forall_forall in B. exact (B hd Hin).
Qed.

(** The word-at-a-time path writes the stuffed big-endian bytes of the word, and so does the byte-at-a-time
    path: every word, both word sizes. *)
Theorem C05_fast_path : forall P buf, plat_ok P -> 0 <= buf < 2 ^ ubits P ->
  let n := ubits P / 8 in
  let word := map (fun i => buf / 2 ^ (8 * (n - 1 - i)) mod 256) (upto n) in
  exec (write_bit_buffer P buf) = (stuffed word, Ok tt) /\
  exec (foldM (fun _ i => flush_byte P buf (i * 8)) (zrange (BUFFER_SIZE P / 8)) tt) = (stuffed word, Ok tt).
Proof.
  intros P buf HP Hb n word.
  assert (Ew : word = be_bytes (Z.to_nat n) buf).
  { apply nth_ext with (d := 0) (d' := 0); unfold word.
    - now rewrite map_length, upto_length, be_bytes_length.
    - intros i Hi. rewrite map_length, upto_length in Hi. rewrite be_bytes_nth by exact Hi.
      unfold upto. rewrite map_map.
      rewrite nth_indep with (d' := (fun x => buf / 2 ^ (8 * (n - 1 - Z.of_nat x)) mod 256) 0%nat)
        by (rewrite map_length, seq_length; exact Hi).
      rewrite (map_nth (fun x => buf / 2 ^ (8 * (n - 1 - Z.of_nat x)) mod 256)), seq_nth by exact Hi. cbn [Nat.add]. do 4 f_equal. lia. }
  change (stuffed word) with (stuff word). rewrite Ew. split.
  - exact (emits_write_bit_buffer P buf HP Hb).
  - pose proof (plat_bits P HP) as HU.
    pose proof (flush_loop P buf (Z.to_nat (ubits P / 8)) HP) as HF.
    assert (H8 : 0 <= ubits P / 8) by (apply Z.div_pos; lia).
    rewrite Z2Nat.id in HF by exact H8. specialize (HF ltac:(lia)).
    replace (ubits P - 8 * (ubits P / 8)) with 0 in HF by (destruct HP as [->| ->]; reflexivity).
    change (2 ^ 0) with 1 in HF. rewrite Z.div_1_r in HF. exact HF.
Qed.
Example C05_fast_case : exec (write_bit_buffer debug64 0x01FF80FE7FFF00FF)
  = ([1; 255; 0; 128; 254; 127; 255; 0; 0; 255; 0], Ok tt).
Proof. vm_compute. reflexivity. Qed.

(** C06: a DRI segment with the restart interval exactly when it is not 0; in every scan the MCUs
    (A.2; data units in a scan with one component) are grouped in intervals of that many, there is one
    coded interval per group, each decodes on its own with predictions starting from 0 and is padded
    with 1-bits, and [coded_data] separates the intervals with RST0, RST1, ... RST7, RST0, ... *)
Theorem C06_restart_markers : forall P quality calls data w h c,
  std_config quality calls -> valid_input P data w h c ->
  let s := settings_of quality calls in
  let f := frame_for s (spec_color c) w h in
  let r := s_restart s in
  exists bytes ps,
    exec (run_encode P quality calls data w h c) = (bytes, Ok tt) /\ bytes = render_file ps /\
    dri_segments ps = (if r =? 0 then [] else [[r / 256; r mod 256]]) /\
    Forall2 (fun hd si =>
               Z.of_nat (length (snd hd)) = interval_count r (mcu_count f si) /\
               Z.of_nat (length (mcus_of f si)) = mcu_count f si /\
               exists sc, sc_ss sc = si_ss si /\ sc_se sc = si_se si /\
                 Forall2 (interval_bits sc (length (fr_comps f))) (intervals r (mcus_of f si)) (snd hd))
            (scans ps) (scan_script s (spec_color c)).
Proof.
  intros P quality calls data w h c C V s f r.
  destruct (file_structure P quality calls data w h c C V) as (bytes & ps & E & B & E2 & F & _ & D).
  exists bytes, ps. split; [exact E|]. split; [exact E2|]. split; [exact D|].
  fold s in F. fold f r in F. eapply F2_impl; [|exact F].
  intros hd si (_ & H2 & H3 & H4). auto.
Qed.

(** The restart markers themselves: between interval [i] and [i + 1] stands RST(i mod 8), no other. *)
Theorem C06_numbering : forall ds d1 d2 ds2 m,
  coded_data m (ds ++ d1 :: d2 :: ds2)
  = coded_data m (ds ++ [d1]) ++ [255; 208 + (m + Z.of_nat (length ds)) mod 8]
    ++ coded_data (m + Z.of_nat (length ds) + 1) (d2 :: ds2).
Proof.
  induction ds as [|d ds IH]; intros d1 d2 ds2 m.
  - cbn [app length]. rewrite Z.add_0_r. reflexivity.
  - assert (E : forall x l, coded_data m (d :: (ds ++ x :: l)) = stuffed d ++ [255; 208 + m mod 8] ++ coded_data (m + 1) (ds ++ x :: l)).
    { intros x l. destruct ds; reflexivity. }
    change ((d :: ds) ++ d1 :: d2 :: ds2) with (d :: (ds ++ d1 :: d2 :: ds2)).
    change ((d :: ds) ++ [d1]) with (d :: (ds ++ [d1])).
    rewrite !E, IH. rewrite <- !app_assoc. cbn [app length].
    replace (m + 1 + Z.of_nat (length ds)) with (m + Z.of_nat (S (length ds))) by lia. reflexivity.
Qed.
Example C06_case : interval_count (s_restart (settings_of 60 ex_cfg))
  (mcu_count (frame_for (settings_of 60 ex_cfg) JYcbcr 40 30) {| si_comps := [0%nat]; si_ss := 0; si_se := 0 |}) = 20.
Proof. reflexivity. Qed.


(** ** C19: the standard tables *)
Definition dc_symbols : list Z := upto 12.
(** EOB, ZRL and every run 0..15 with every size 1..10 *)
Definition ac_symbols : list Z := 0 :: 240 :: flat_map (fun r => map (fun n => 16 * r + n + 1) (upto 10)) (upto 16).

Definition covers (vals syms : list Z) : bool := forallb (fun s => existsb (Z.eqb s) vals) syms.
Lemma covers_in vals syms : covers vals syms = true -> forall v, In v syms -> In v vals.
Proof. intros H v Hv. unfold covers in H. rewrite forallb_forall in H. exact (memz_in v vals (H v Hv)). Qed.

Lemma std_good P bits vals syms t mk tb :
  mk = Ret t -> h_length t = bits -> h_values t = vals -> build_table bits vals = Some tb ->
  (forall v, In v vals -> codes t tb v) -> covers vals syms = true ->
  exists t', mk = Ret t' /\ h_length t' = bits /\ h_values t' = vals /\
    good_code bits vals (lookup_of P t') /\ forall v, In v syms -> In v vals.
Proof.
  intros E1 E2 E3 E4 E5 E6. exists t. repeat (split; [assumption|]).
  split; [now apply (good_code_intro P t bits vals tb)|now apply covers_in].
Qed.

(** Each of the four tables is the one of Annex K, a valid code, and covers every symbol. *)
Theorem C19_luma_dc : forall P, exists t, default_luma_dc P = Ret t /\
  h_length t = annexK_luma_dc_bits /\ h_values t = annexK_luma_dc_vals /\
  good_code annexK_luma_dc_bits annexK_luma_dc_vals (lookup_of P t) /\
  forall v, In v dc_symbols -> In v annexK_luma_dc_vals.
Proof.
  intros P. eapply (std_good P) with (tb := tb_ldc); [exact (std_luma_dc_ret P)|reflexivity..|vm_compute; reflexivity| |vm_compute; reflexivity].
  eapply std_valid; [exact std_luma_dc_ret|vm_compute; reflexivity..].
Qed.
Theorem C19_luma_ac : forall P, exists t, default_luma_ac P = Ret t /\
  h_length t = annexK_luma_ac_bits /\ h_values t = annexK_luma_ac_vals /\
  good_code annexK_luma_ac_bits annexK_luma_ac_vals (lookup_of P t) /\
  forall v, In v ac_symbols -> In v annexK_luma_ac_vals.
Proof.
  intros P. eapply (std_good P) with (tb := tb_lac); [exact (std_luma_ac_ret P)|reflexivity..|vm_compute; reflexivity| |vm_compute; reflexivity].
  eapply std_valid; [exact std_luma_ac_ret|vm_compute; reflexivity..].
Qed.
Theorem C19_chroma_dc : forall P, exists t, default_chroma_dc P = Ret t /\
  h_length t = annexK_chroma_dc_bits /\ h_values t = annexK_chroma_dc_vals /\
  good_code annexK_chroma_dc_bits annexK_chroma_dc_vals (lookup_of P t) /\
  forall v, In v dc_symbols -> In v annexK_chroma_dc_vals.
Proof.
  intros P. eapply (std_good P) with (tb := tb_cdc); [exact (std_chroma_dc_ret P)|reflexivity..|vm_compute; reflexivity| |vm_compute; reflexivity].
  eapply std_valid; [exact std_chroma_dc_ret|vm_compute; reflexivity..].
Qed.
Theorem C19_chroma_ac : forall P, exists t, default_chroma_ac P = Ret t /\
  h_length t = annexK_chroma_ac_bits /\ h_values t = annexK_chroma_ac_vals /\
  good_code annexK_chroma_ac_bits annexK_chroma_ac_vals (lookup_of P t) /\
  forall v, In v ac_symbols -> In v annexK_chroma_ac_vals.
Proof.
  intros P. eapply (std_good P) with (tb := tb_cac); [exact (std_chroma_ac_ret P)|reflexivity..|vm_compute; reflexivity| |vm_compute; reflexivity].
  eapply std_valid; [exact std_chroma_ac_ret|vm_compute; reflexivity..].
Qed.
(** Table K.3: the luminance DC code words of T.81, written out. *)
Example C19_table_K3 :
  map (fun v => match lookup_of debug64 std_luma_dc v with Some (n, c) => bits_of (Z.to_nat n) c | None => [] end) (upto 12)
  = let o := false in let i := true in
    [[o;o]; [o;i;o]; [o;i;i]; [i;o;o]; [i;o;i]; [i;i;o]; [i;i;i;o]; [i;i;i;i;o]; [i;i;i;i;i;o];
     [i;i;i;i;i;i;o]; [i;i;i;i;i;i;i;o]; [i;i;i;i;i;i;i;i;o]].
Proof. reflexivity. Qed.

(** ** C27: progressive scans *)
(** [n - 1] bands, every coefficient 1..63 in exactly one of them. *)
Definition partition_1_63 (n : Z) (bands : list (Z * Z)) : Prop :=
  Z.of_nat (length bands) = n - 1 /\
  forall k, 1 <= k <= 63 -> exists b, filter (fun b => (fst b <=? k) && (k <=? snd b)) bands = [b].

Lemma spectral_partition n : 2 <= n <= 64 -> partition_1_63 n (spectral_bands n).
Proof.
  intros Hn. split.
  - unfold spectral_bands. rewrite map_length, upto_length. lia.
  - intros k Hk.
    pose proof (zall (fun n => forallb (fun k => Nat.eqb (length (filter (fun b => (fst b <=? k) && (k <=? snd b)) (spectral_bands n))) 1)
               (map (fun k => 1 + k) (zrange (64 - 1)))) 2 65 ltac:(vm_compute; reflexivity) n ltac:(lia)) as G.
    cbv beta in G. pose proof (zall _ 1 64 G k ltac:(lia)) as G1. cbv beta in G1. apply Nat.eqb_eq in G1.
    destruct (filter _ _) as [|b [|]] eqn:E; try discriminate. now exists b.
Qed.

(** In the file: after one DC scan per component, the scans of each component are AC scans that carry
    every coefficient 1..63 exactly once, and there are [n - 1] of them. *)
Theorem C27_file : forall P quality calls data w h c n,
  std_config quality calls -> valid_input P data w h c ->
  s_scans (settings_of quality calls) = Some n -> 2 <= n ->
  exists bytes j, exec (run_encode P quality calls data w h c) = (bytes, Ok tt) /\ decode bytes = Some j /\
    forall ci, (ci < length (fr_comps (j_frame j)))%nat ->
    exists dc ac, filter (fun si => existsb (Nat.eqb ci) (si_comps si)) (j_scans j) = dc :: ac /\
      si_ss dc = 0 /\ si_se dc = 0 /\ partition_1_63 n (map (fun si => (si_ss si, si_se si)) ac).
Proof.
  intros P quality calls data w h c n C V Hs Hn.
  destruct (C01_round_trip P quality calls data w h c C V) as (bytes & j & E & B & D & A).
  exists bytes, j. split; [exact E|]. split; [exact D|]. intros ci Hci.
  rewrite (da_scans _ _ _ _ _ _ _ A). rewrite (da_frame _ _ _ _ _ _ _ A) in Hci. cbn [frame_for fr_comps] in Hci.
  unfold scan_script. destruct (factors _) as [hh vv]. rewrite Hs.
  set (m := length _) in *. rewrite filter_app.
  assert (Hsingle : forall b, filter (fun si => existsb (Nat.eqb ci) (si_comps si)) (single_scans m b)
                              = [{| si_comps := [ci]; si_ss := fst b; si_se := snd b |}]).
  { intros b. unfold single_scans. clear - Hci.
    replace m with (ci + S (m - S ci))%nat by lia. rewrite seq_app, map_app, filter_app. cbn [seq map].
    assert (Z0 : forall a k, (forall i, (a <= i < a + k)%nat -> i <> ci) ->
      filter (fun si => existsb (Nat.eqb ci) (si_comps si))
        (map (fun i => {| si_comps := [i]; si_ss := fst b; si_se := snd b |}) (seq a k)) = []).
    { intros a k. revert a. induction k as [|k IH]; intros a Ha; [reflexivity|]. cbn [seq map filter si_comps existsb].
      destruct (Nat.eqb ci a) eqn:Ea; [apply Nat.eqb_eq in Ea; exfalso; apply (Ha a); lia|]. cbn [orb]. apply IH. intros i Hi. apply Ha. lia. }
    rewrite (Z0 0%nat ci) by lia. cbn [app filter si_comps existsb]. replace (Nat.eqb ci (0 + ci)) with true by (symmetry; apply Nat.eqb_eq; lia).
    cbn [orb]. rewrite Z0 by lia. reflexivity. }
  rewrite (Hsingle (0, 0)). cbn [app fst snd].
  exists {| si_comps := [ci]; si_ss := 0; si_se := 0 |}, (map (fun b => {| si_comps := [ci]; si_ss := fst b; si_se := snd b |}) (spectral_bands n)).
  split; [|split; [reflexivity|split; [reflexivity|]]].
  - f_equal. induction (spectral_bands n) as [|b bs IH]; [reflexivity|].
    cbn [flat_map map]. rewrite filter_app, Hsingle, IH. reflexivity.
  - rewrite map_map. cbn [si_ss si_se].
    rewrite (map_ext (fun x : Z * Z => (fst x, snd x)) (fun x => x)) by now intros [a b]. rewrite map_id.
    apply spectral_partition. split; [exact Hn|].
    pose proof (sc_scans _ _ C) as H33. rewrite Hs in H33. lia.
Qed.
(** The bands [start..end) the encoder uses, for every accepted number of scans. *)
Theorem C27_bands : forall P n, plat_ok P -> 2 <= n <= 64 ->
  exists bs, prog_bands P n = Ret bs /\ partition_1_63 n (map (fun b => (fst b, snd b - 1)) bs).
Proof.
  intros P n HP Hn. exists (bands n). split; [now apply prog_bands_ret|]. split.
  - unfold bands. rewrite !map_length. unfold zrange. rewrite map_length, seq_length. lia.
  - intros k Hk. destruct (bands_partition n k Hn ltac:(lia)) as (b & Hb).
    exists (fst b, snd b - 1).
    assert (G : forall l, filter (fun b => (fst b <=? k) && (k <=? snd b)) (map (fun b : Z * Z => (fst b, snd b - 1)) l)
                = map (fun b => (fst b, snd b - 1)) (filter (fun b => (fst b <=? k) && (k <? snd b)) l)).
    { induction l as [|[x y] l IH]; [reflexivity|]. cbn [map filter fst snd]. replace (k <=? y - 1) with (k <? y) by lia.
      destruct ((x <=? k) && (k <? y)); cbn [map]; rewrite IH; reflexivity. }
    rewrite G, Hb. reflexivity.
Qed.

(** ** C28: scan headers *)
(** Up to 33 scans every header is valid ... *)
Theorem C28_valid : forall P quality calls data w h c,
  std_config quality calls -> valid_input P data w h c ->
  exists bytes j, exec (run_encode P quality calls data w h c) = (bytes, Ok tt) /\ decode bytes = Some j /\
    forall si, In si (j_scans j) -> 0 <= si_ss si <= si_se si /\ si_se si <= 63.
Proof.
  intros P quality calls data w h c C V.
  destruct (C01_round_trip P quality calls data w h c C V) as (bytes & j & E & B & D & A).
  exists bytes, j. split; [exact E|]. split; [exact D|]. intros si. rewrite (da_scans _ _ _ _ _ _ _ A).
  unfold scan_script. destruct (factors _) as [hh vv].
  assert (Hs : forall m b, In si (single_scans m b) -> si_ss si = fst b /\ si_se si = snd b).
  { intros m b H. unfold single_scans in H. apply in_map_iff in H as (i & <- & _). auto. }
  destruct (s_scans (settings_of quality calls)) as [n|] eqn:Es.
  - intros H. apply in_app_or in H as [H|H]; [apply Hs in H as [-> ->]; cbn; lia|].
    apply in_flat_map in H as (b & Hb & H). apply Hs in H as [-> ->].
    pose proof (sc_scans _ _ C) as H33. rewrite Es in H33.
    assert (Hn : n < 2 \/ 2 <= n <= 33) by lia. destruct Hn as [Hn|Hn].
    + unfold spectral_bands, upto in Hb. replace (Z.to_nat (n - 1)) with 0%nat in Hb by lia. destruct Hb.
    + pose proof (zall (fun n => forallb (fun b => (0 <=? fst b) && (fst b <=? snd b) && (snd b <=? 63)) (spectral_bands n)) 2 34
        ltac:(vm_compute; reflexivity) n ltac:(lia)) as G.
      cbv beta in G. rewrite forallb_forall in G. specialize (G b Hb). lia.
  - destruct (negb _ && _ && _); intros H.
    + destruct H as [<-|[]]. cbn. lia.
    + apply Hs in H as [-> ->]. cbn. lia.
Qed.

(** ... but for every number of scans from 34 to 64 the first AC scan has Ss = 1 > Se = 0, and T.81
    forbids the file. *)
Definition gray8 : list Z := upto 64.
Definition sos_1_0 : list Z := [255; 218; 0; 8; 1; 0; 0; 1; 0; 0].
Fixpoint contains (p l : list Z) : bool :=
  match l with
  | [] => false
  | _ :: l' => (if list_eq_dec Z.eq_dec (firstn (length p) l) p then true else false) || contains p l'
  end.
Definition rejected (n : Z) (r : list Z * outcome unit) : bool :=
  match r with
  | (bytes, Ok tt) => contains sos_1_0 bytes && match decode bytes with None => true | _ => false end
  | _ => false
  end.
Lemma rejected_inv n r : rejected n r = true ->
  exists bytes, r = (bytes, Ok tt) /\ contains sos_1_0 bytes = true /\ decode bytes = None.
Proof.
  destruct r as [bytes [[]| | ]]; cbn [rejected]; try discriminate.
  intros H. exists bytes. apply andb_prop in H as [H1 H2]. split; [reflexivity|]. split; [exact H1|].
  destruct (decode bytes); [discriminate|reflexivity].
Qed.
Theorem C28_violated : forall n, 34 <= n <= 64 ->
  exists bytes, exec (run_encode debug64 75 [CScans n] gray8 8 8 Luma) = (bytes, Ok tt) /\
    contains sos_1_0 bytes = true /\ decode bytes = None.
Proof.
  intros n Hn. apply (rejected_inv n).
  apply (zall (fun n => rejected n (exec (run_encode debug64 75 [CScans n] gray8 8 8 Luma))) 34 65);
    [vm_compute; reflexivity|lia].
Qed.
Theorem C28_headers : forall n, 34 <= n <= 64 -> hd (0, 0) (spectral_bands n) = (1, 0).
Proof.
  intros n Hn.
  pose proof (zall (fun n => (fst (hd (0, 0) (spectral_bands n)) =? 1) && (snd (hd (0, 0) (spectral_bands n)) =? 0)) 34 65
                ltac:(vm_compute; reflexivity) n ltac:(lia)) as G. cbv beta in G.
  destruct (hd (0, 0) (spectral_bands n)) as [a b]. cbn [fst snd] in G. f_equal; lia.
Qed.
