(** The whole file for an encoder configuration. *)
From Verif Require Export PTop.
From Verif Require Import T81.
From Coq Require Import ZifyBool ZifyNat.
Local Ltac Zify.zify_post_hook ::= Z.div_mod_to_equations.

(** ** The standard tables, evaluated *)
Definition get_ret {A} (d : A) (m : prog A) : A := match m with Ret a => a | _ => d end.
Definition P0 : platform := {| dbg := true; ubits := 64 |}.
Definition no_htab : htab := {| h_lookup := []; h_length := []; h_values := [] |}.
Definition std_luma_dc : htab := Eval vm_compute in get_ret no_htab (default_luma_dc P0).
Definition std_luma_ac : htab := Eval vm_compute in get_ret no_htab (default_luma_ac P0).
Definition std_chroma_dc : htab := Eval vm_compute in get_ret no_htab (default_chroma_dc P0).
Definition std_chroma_ac : htab := Eval vm_compute in get_ret no_htab (default_chroma_ac P0).
Definition std_huff : list (htab * htab) := [(std_luma_dc, std_luma_ac); (std_chroma_dc, std_chroma_ac)].

Lemma std_luma_dc_ret P : default_luma_dc P = Ret std_luma_dc.
Proof. vm_compute. reflexivity. Qed.
Lemma std_luma_ac_ret P : default_luma_ac P = Ret std_luma_ac.
Proof. vm_compute. reflexivity. Qed.
Lemma std_chroma_dc_ret P : default_chroma_dc P = Ret std_chroma_dc.
Proof. vm_compute. reflexivity. Qed.
Lemma std_chroma_ac_ret P : default_chroma_ac P = Ret std_chroma_ac.
Proof. vm_compute. reflexivity. Qed.

Definition std_tb (lens vals : list Z) : table := match build_table lens vals with Some t => t | None => [] end.
Definition tb_ldc := Eval vm_compute in std_tb DEFAULT_LUMA_DC_CODE_LENGTHS DEFAULT_LUMA_DC_VALUES.
Definition tb_lac := Eval vm_compute in std_tb DEFAULT_LUMA_AC_CODE_LENGTHS DEFAULT_LUMA_AC_VALUES.
Definition tb_cdc := Eval vm_compute in std_tb DEFAULT_CHROMA_DC_CODE_LENGTHS DEFAULT_CHROMA_DC_VALUES.
Definition tb_cac := Eval vm_compute in std_tb DEFAULT_CHROMA_AC_CODE_LENGTHS DEFAULT_CHROMA_AC_VALUES.

Definition all_bytes (l : list Z) : bool := forallb (fun b => (0 <=? b) && (b <? 256)) l.
Lemma all_bytes_ok l : all_bytes l = true -> bytes_ok l.
Proof.
  intros H. unfold all_bytes in H. rewrite forallb_forall in H. apply Forall_forall.
  intros x Hx. specialize (H x Hx). cbv beta in H. lia.
Qed.

Lemma std_valid lens vals t tb :
  (forall P, huffman_new P lens vals = Ret t) -> build_table lens vals = Some tb ->
  all_bytes lens = true -> all_bytes vals = true ->
  valid_tab t tb /\ forall v, In v vals -> codes t tb v.
Proof.
  intros Ht Hb Hl Hv. apply all_bytes_ok in Hl, Hv.
  destruct (huffman_new_codes P0 lens vals tb Hb Hv) as (t' & He & E1 & E2 & _ & Hc & _).
  rewrite Ht in He. inversion He; subst t'. split; [|exact Hc].
  constructor; rewrite ?E1, ?E2; assumption.
Qed.

Lemma V_ldc : valid_tab std_luma_dc tb_ldc.
Proof. eapply std_valid; [exact std_luma_dc_ret|vm_compute; reflexivity..]. Qed.
Lemma V_lac : valid_tab std_luma_ac tb_lac.
Proof. eapply std_valid; [exact std_luma_ac_ret|vm_compute; reflexivity..]. Qed.
Lemma V_cdc : valid_tab std_chroma_dc tb_cdc.
Proof. eapply std_valid; [exact std_chroma_dc_ret|vm_compute; reflexivity..]. Qed.
Lemma V_cac : valid_tab std_chroma_ac tb_cac.
Proof. eapply std_valid; [exact std_chroma_ac_ret|vm_compute; reflexivity..]. Qed.

Definition memz (x : Z) (l : list Z) : bool := existsb (Z.eqb x) l.
Lemma memz_in x l : memz x l = true -> In x l.
Proof. intros H. apply existsb_exists in H as (y & Hy & E). apply Z.eqb_eq in E. now subst. Qed.

Lemma dc_all vals : forallb (fun s => memz s vals) (map (fun k => 0 + k) (zrange (12 - 0))) = true ->
  forall s, 0 <= s <= 11 -> In s vals.
Proof. intros H s Hs. apply memz_in. apply (zall (fun s => memz s vals) 0 12 H). lia. Qed.
Lemma ac_all vals :
  forallb (fun r => forallb (fun n => memz (16 * r + n) vals) (map (fun k => 1 + k) (zrange (11 - 1))))
          (map (fun k => 0 + k) (zrange (16 - 0))) = true ->
  forall r n, 0 <= r < 16 -> 1 <= n <= 10 -> In (16 * r + n) vals.
Proof.
  intros H r n Hr Hn. apply memz_in.
  pose proof (zall (fun r => forallb (fun n => memz (16 * r + n) vals) (map (fun k => 1 + k) (zrange (11 - 1)))) 0 16 H r ltac:(lia)) as H1.
  apply (zall (fun n => memz (16 * r + n) vals) 1 11 H1). lia.
Qed.

Lemma complete_luma : complete std_luma_dc std_luma_ac tb_ldc tb_lac.
Proof.
  destruct (std_valid _ _ _ tb_ldc std_luma_dc_ret ltac:(vm_compute; reflexivity) ltac:(vm_compute; reflexivity) ltac:(vm_compute; reflexivity)) as [_ H1].
  destruct (std_valid _ _ _ tb_lac std_luma_ac_ret ltac:(vm_compute; reflexivity) ltac:(vm_compute; reflexivity) ltac:(vm_compute; reflexivity)) as [_ H2].
  constructor.
  - intros s Hs. apply H1. apply dc_all; [vm_compute; reflexivity|exact Hs].
  - apply H2. apply memz_in. vm_compute. reflexivity.
  - apply H2. apply memz_in. vm_compute. reflexivity.
  - intros r n Hr Hn. apply H2. apply ac_all; [vm_compute; reflexivity|exact Hr|exact Hn].
Qed.
Lemma complete_chroma : complete std_chroma_dc std_chroma_ac tb_cdc tb_cac.
Proof.
  destruct (std_valid _ _ _ tb_cdc std_chroma_dc_ret ltac:(vm_compute; reflexivity) ltac:(vm_compute; reflexivity) ltac:(vm_compute; reflexivity)) as [_ H1].
  destruct (std_valid _ _ _ tb_cac std_chroma_ac_ret ltac:(vm_compute; reflexivity) ltac:(vm_compute; reflexivity) ltac:(vm_compute; reflexivity)) as [_ H2].
  constructor.
  - intros s Hs. apply H1. apply dc_all; [vm_compute; reflexivity|exact Hs].
  - apply H2. apply memz_in. vm_compute. reflexivity.
  - apply H2. apply memz_in. vm_compute. reflexivity.
  - intros r n Hr Hn. apply H2. apply ac_all; [vm_compute; reflexivity|exact Hr|exact Hn].
Qed.

(** ** Configurations *)
Definition seg_ok (s : Z * list Z) : Prop := 1 <= fst s <= 15 /\ zlen (snd s) <= 65533 /\ bytes_ok (snd s).

(** Every value the encoder can hold after construction and setter calls. *)
Record enc_ok (e : encoder) (t0 t1 : qtype) : Prop := {
  eo_comps : e_components e = [];
  eo_qtypes : e_qtypes e = [t0; t1];
  eo_qt0 : qtype_ok t0;
  eo_qt1 : qtype_ok t1;
  eo_huff : e_huff e = std_huff;
  eo_restart : match e_restart e with Some r => 1 <= r < 65536 | None => True end;
  eo_prog : match e_prog e with Some s => 2 <= s <= 64 | None => True end;
  eo_segs : Forall seg_ok (e_segments e)
}.

(** Custom tables fit the 8-bit entries of a baseline DQT segment. *)
Definition qtype_8bit (t : qtype) : Prop :=
  match t with QCustom l => Forall (fun v => v <= 255) l | _ => True end.

Lemma quantizers_8bit t quality luma : qtype_8bit t ->
  Forall (fun v => 1 <= v <= 255) (quantizers t quality luma).
Proof.
  intros Ht. apply Forall_forall. intros v Hv. destruct t; cbn [quantizers] in Hv;
    apply in_map_iff in Hv as (w & <- & Hw); try (apply clamp_bounds; lia).
  cbn [qtype_8bit] in Ht. rewrite Forall_forall in Ht. specialize (Ht w Hw). unfold clamp.
  destruct (w <? 1) eqn:E1; [lia|]. destruct (2048 <? w) eqn:E2; lia.
Qed.

Lemma quantizers_length t quality luma : qtype_ok t -> length (quantizers t quality luma) = 64%nat.
Proof.
  intros Ht. destruct t, luma; cbn [quantizers base_table]; rewrite map_length; try reflexivity; apply Ht.
Qed.

Lemma qt_get_small t quality luma i : qtype_ok t -> qtype_8bit t -> 0 <= i < 64 ->
  qt_get (qtable_of t quality luma) i = zn (quantizers t quality luma) i /\
  1 <= zn (quantizers t quality luma) i <= 255.
Proof.
  intros Ht H8 Hi.
  assert (Hl : zlen (quantizers t quality luma) = 64) by (unfold zlen; rewrite quantizers_length by assumption; reflexivity).
  assert (Hb : 1 <= zn (quantizers t quality luma) i <= 255).
  { apply (zn_in_range (fun v => 1 <= v <= 255)); [now apply quantizers_8bit|]. rewrite Hl. lia. }
  split; [|exact Hb].
  unfold qt_get, qtable_of. cbn [qt_table]. rewrite (zn_map _ _ _ 0) by lia.
  change (nth (Z.to_nat i) (quantizers t quality luma) 0) with (zn (quantizers t quality luma) i).
  set (v := zn (quantizers t quality luma) i) in *. clearbody v.
  change (2 ^ 3) with 8. rewrite wrap_u_id; lia.
Qed.

Lemma qt_pos t quality luma : qtype_ok t -> qtype_8bit t ->
  Forall (fun z => 0 < qt_get (qtable_of t quality luma) z) ZIGZAG.
Proof.
  intros Ht H8. assert (HZ : Forall (fun z => 0 <= z < 64) ZIGZAG) by (repeat constructor; lia).
  rewrite Forall_forall in *. intros z Hz. destruct (qt_get_small t quality luma z Ht H8 (HZ z Hz)) as [-> Hb]. lia.
Qed.

Definition adobe_apps (c : jcolor) : list (Z * list Z) :=
  match c with JCmyk => [(14, ADOBE_UNKNOWN)] | JYcck => [(14, ADOBE_YCCK)] | _ => [] end.
Definition file_apps (e : encoder) (c : jcolor) : list (Z * list Z) :=
  (0, jfif_payload (e_density e)) :: adobe_apps c ++ e_segments e.

Lemma add_app_astate l a : add_app (astate l) a = astate (l ++ [a]).
Proof. reflexivity. Qed.

Lemma segments_dec P l : Forall seg_ok l -> forall apps,
  dec (foldM (fun _ '(nr, data) => write_segment P (APP nr) data) l tt) tt (astate apps) (astate (apps ++ l)).
Proof.
  induction l as [|[nr d] l IH]; intros Hl apps; cbn [foldM].
  - rewrite app_nil_r. apply dec_ret.
  - inversion Hl as [|? ? (Hn & Hs & Hb) Hl']; subst. cbn [fst snd] in *.
    eapply dec_bind.
    + apply (dec_app _ tt nr d (astate apps)); [now apply emits_write_segment|lia|exact Hs|exact Hb].
    + rewrite add_app_astate. replace (apps ++ (nr, d) :: l) with ((apps ++ [(nr, d)]) ++ l) by (now rewrite <- app_assoc).
      apply IH. exact Hl'.
Qed.

Lemma adobe_dec P c apps :
  dec (match c with
       | JCmyk => write_segment P (APP 14) ADOBE_UNKNOWN
       | JYcck => write_segment P (APP 14) ADOBE_YCCK
       | _ => Ret tt
       end) tt (astate apps) (astate (apps ++ adobe_apps c)).
Proof.
  destruct c; cbn [adobe_apps]; try (rewrite app_nil_r; apply dec_ret).
  - apply (dec_app _ tt 14 ADOBE_UNKNOWN); [apply emits_write_segment|..]; try (unfold zlen; cbn; lia).
    repeat constructor; lia.
  - apply (dec_app _ tt 14 ADOBE_YCCK); [apply emits_write_segment|..]; try (unfold zlen; cbn; lia).
    repeat constructor; lia.
Qed.

(** Which body [encode_image_internal] chooses. *)
Definition body (P : platform) (op : operations) (e : encoder) (cs : list component) (im : image) (q0 q1 : qtable) (w : bitw) : prog bitw :=
  match e_prog e with
  | Some scans => encode_image_progressive P op e scans cs im q0 q1 w
  | None =>
    if e_optimize e || negb (supports_interleaved (e_sampling e))
    then encode_image_sequential P op e cs im q0 q1 w
    else encode_image_interleaved P op e cs im q0 q1 w
  end.

Definition body_scans (e : encoder) (cs : list component) : list scan_info :=
  match e_prog e with
  | Some scans => map (one_scan 0 0) (enumerate cs) ++ ac_scans cs (bands scans)
  | None =>
    if e_optimize e || negb (supports_interleaved (e_sampling e))
    then map (one_scan 0 63) (enumerate cs)
    else [{| si_comps := seq 0 (length cs); si_ss := 0; si_se := 63 |}]
  end.

(** What the decoder finds, given how the scans decode. *)
Lemma internal_decodes P op e im pl F t0 t1 d0 a0 d1 a1 bd0 ba0 bd1 ba1 :
  let q0 := qtable_of t0 (e_quality e) true in
  let q1 := qtable_of t1 (e_quality e) false in
  let color := im_color im in
  let cs := init_components (e_sampling e) color in
  let mh := max_h (e_sampling e) color in
  let mv := max_v (e_sampling e) color in
  image_ok im pl -> enc_ok e t0 t1 ->
  coded P im pl F cs mh mv q0 q1 e bd0 ba0 bd1 ba1
        (body P op e cs im q0 q1 (bitw_new P)) (file_apps e color) (body_scans e cs) ->
  valid_tab d0 bd0 -> valid_tab a0 ba0 -> valid_tab d1 bd1 -> valid_tab a1 ba1 ->
  exists bytes j,
    emits (encode_image_internal P op e im) bytes tt /\ bytes_ok bytes /\
    decode bytes = Some j /\
    j_frame j = frame_of (match e_prog e with Some _ => true | None => false end)
                         (im_width im) (im_height im) cs /\
    j_app j = file_apps e color /\
    j_qt j = [Some (map (qt_get q0) ZIGZAG); Some (map (qt_get q1) ZIGZAG); None; None] /\
    j_ri j = restart_of e /\
    log_ok im pl F cs mh mv q0 q1 (j_log j) /\
    j_scans j = body_scans e cs.
Proof.
  intros q0 q1 color cs mh mv Him He Hcoded V0 V1 V2 V3.
  destruct Hcoded as (log & Hdec & Hlog).
  pose proof (io_width _ _ Him). pose proof (io_height _ _ Him).
  assert (HE : decE (write_header (e_density e) ;;;
      (match im_color im with
       | JCmyk => write_segment P (APP 14) ADOBE_UNKNOWN
       | JYcck => write_segment P (APP 14) ADOBE_YCCK
       | _ => Ret tt
       end) ;;;
      foldM (fun _ '(nr, data) => write_segment P (APP nr) data) (e_segments e) tt ;;;
      let* _ := body P op e cs im q0 q1 (bitw_new P) in
      write_marker EOI) tt init_state
      (hstate (frame_of match e_prog e with Some _ => true | None => false end (im_width im) (im_height im) cs)
         (map (qt_get q0) ZIGZAG) (map (qt_get q1) ZIGZAG)
         (slots (Z.to_nat (num_components color)) bd0 bd1) (slots (Z.to_nat (num_components color)) ba0 ba1)
         (restart_of e) (file_apps e color) log (body_scans e cs))).
  { eapply decE_bind.
    { destruct (jfif_payload_ok (e_density e)) as [J1 J2].
      apply (dec_app _ tt 0 (jfif_payload (e_density e)) (astate [])); [apply emits_write_header|lia|lia|exact J2]. }
    rewrite add_app_astate. cbn [app].
    eapply decE_bind; [apply adobe_dec|].
    eapply decE_bind; [apply segments_dec; apply (eo_segs _ _ _ He)|].
    eapply decE_bind; [|apply decE_eoi].
    replace (([(0, jfif_payload (e_density e))] ++ adobe_apps (im_color im)) ++ e_segments e)
      with (file_apps e color) by reflexivity.
    exact Hdec. }
  destruct (decode_file _ _ _ HE eq_refl) as (bytes & Hem & Hb & Hd).
  exists bytes. eexists. split.
  2:{ split; [exact Hb|]. split; [exact Hd|]. cbn [hstate st_app st_qt st_ri st_log st_scans j_frame j_app j_qt j_ri j_log j_scans].
      repeat split; try reflexivity. exact Hlog. }
  unfold encode_image_internal.
  replace ((im_width im =? 0) || (im_height im =? 0)) with false by lia.
  rewrite (eo_qtypes _ _ _ He), (eo_comps _ _ _ He).
  change (index [t0; t1] 0) with (@Ret qtype t0). change (index [t0; t1] 1) with (@Ret qtype t1).
  cbn [bind app]. rewrite new_with_quality_ret. cbn [bind].
  eapply emits_bind0; [rewrite new_with_quality_ret; apply emits_ret|]. exact Hem.
Qed.

Section Std.
  Variable P : platform.
  Variable HP : plat_ok P.
  Variable im : image.
  Variable pl : planes.
  Variable Him : image_ok im pl.
  Variable op : operations.
  Variable F : list Z -> list Z.
  Variable Hop : op_ok op F.
  Variable Hfit : im_width im * im_height im < 2 ^ (ubits P - 1).
  Variable e : encoder.
  Variables t0 t1 : qtype.
  Variable He : enc_ok e t0 t1.
  Variable H80 : qtype_8bit t0.
  Variable H81 : qtype_8bit t1.
  Let q0 := qtable_of t0 (e_quality e) true.
  Let q1 := qtable_of t1 (e_quality e) false.
  Let cs := init_components (e_sampling e) (im_color im).
  Let mh := max_h (e_sampling e) (im_color im).
  Let mv := max_v (e_sampling e) (im_color im).

  Lemma restart_range : 0 <= restart_of e < 2 ^ 16.
  Proof. pose proof (eo_restart _ _ _ He) as Hr. unfold restart_of. destruct (e_restart e); lia. Qed.
  Lemma restart_nz : e_restart e <> Some 0.
  Proof. pose proof (eo_restart _ _ _ He) as Hr. intros E. rewrite E in Hr. lia. Qed.

  Lemma std_coded apps : e_optimize e = false ->
    match e_prog e with Some s => s <= 33 | None => True end ->
    coded P im pl F cs mh mv q0 q1 e tb_ldc tb_lac tb_cdc tb_cac
          (body P op e cs im q0 q1 (bitw_new P)) apps (body_scans e cs).
  Proof.
    intros Hopt Hs33.
    assert (Hcs : comps_ok cs mh mv) by apply init_components_ok.
    assert (Hn : length cs = Z.to_nat (num_components (im_color im))) by apply init_components_length.
    assert (Hq0 : qtable_ok q0) by (apply qtable_of_ok; apply (eo_qt0 _ _ _ He)).
    assert (Hq1 : qtable_ok q1) by (apply qtable_of_ok; apply (eo_qt1 _ _ _ He)).
    assert (Hz0 : Forall (fun z => 0 < qt_get q0 z) ZIGZAG) by (apply qt_pos; [apply (eo_qt0 _ _ _ He)|exact H80]).
    assert (Hz1 : Forall (fun z => 0 < qt_get q1 z) ZIGZAG) by (apply qt_pos; [apply (eo_qt1 _ _ _ He)|exact H81]).
    pose proof restart_range as Hri. pose proof restart_nz as Hri1.
    pose proof (eo_prog _ _ _ He) as Hpr. pose proof (eo_huff _ _ _ He) as Hh.
    pose proof complete_luma as C0. pose proof complete_chroma as C1.
    pose proof V_ldc as V0. pose proof V_lac as V1. pose proof V_cdc as V2. pose proof V_cac as V3.
    unfold body, body_scans. destruct (e_prog e) as [scans|] eqn:Ep.
    - eapply (progressive_coded P HP im pl Him op F Hop Hfit cs mh mv Hcs Hn q0 q1 Hq0 Hq1 Hz0 Hz1 e Hri Hri1
        std_luma_dc std_luma_ac std_chroma_dc std_chroma_ac tb_ldc tb_lac tb_cdc tb_cac V0 V1 (fun _ => V2) (fun _ => V3) scans apps Ep ltac:(lia)).
      + unfold tables_for. rewrite Hopt, Hh. apply emits_ret.
      + apply (complete_dc_paths P im pl Him op F Hop cs mh mv Hcs Hn q0 q1 Hq0 Hq1 e std_luma_dc std_luma_ac std_chroma_dc std_chroma_ac tb_ldc tb_lac tb_cdc tb_cac (fun _ => V2) (fun _ => V3) C0 C1).
      + apply (complete_ac_paths P im pl Him op F Hop cs mh mv Hcs Hn q0 q1 Hq0 Hq1 e std_luma_dc std_luma_ac std_chroma_dc std_chroma_ac tb_ldc tb_lac tb_cdc tb_cac (fun _ => V2) (fun _ => V3) C0 C1). apply bands_ok. lia.
    - rewrite Hopt. cbn [orb]. destruct (negb (supports_interleaved (e_sampling e))) eqn:Ei.
      + eapply (sequential_coded P HP im pl Him op F Hop Hfit cs mh mv Hcs Hn q0 q1 Hq0 Hq1 Hz0 Hz1 e Hri Hri1
          std_luma_dc std_luma_ac std_chroma_dc std_chroma_ac tb_ldc tb_lac tb_cdc tb_cac V0 V1 (fun _ => V2) (fun _ => V3) apps Ep).
        * unfold tables_for. rewrite Hopt, Hh. apply emits_ret.
        * apply (complete_seq_paths P im pl Him op F Hop cs mh mv Hcs Hn q0 q1 Hq0 Hq1 e std_luma_dc std_luma_ac std_chroma_dc std_chroma_ac tb_ldc tb_lac tb_cdc tb_cac (fun _ => V2) (fun _ => V3) C0 C1).
      + eapply (interleaved_coded P HP im pl Him op F Hop cs mh mv Hcs Hn q0 q1 Hq0 Hq1 Hz0 Hz1 e Hri Hri1
          std_luma_dc std_luma_ac std_chroma_dc std_chroma_ac tb_ldc tb_lac tb_cdc tb_cac V0 V1 (fun _ => V2) (fun _ => V3) C0 C1 apps Ep Hh).
        * intros c Ec. unfold cs, init_components in Ec. destruct (sampling_factors (e_sampling e)) as [h v].
          destruct (im_color im); inversion Ec; subst; split; reflexivity.
        * unfold cs. apply negb_false_iff in Ei. clear - Ei. unfold init_components.
          destruct (e_sampling e), (im_color im); try discriminate Ei; cbn; lia.
  Qed.

  Theorem std_round_trip : e_optimize e = false ->
    match e_prog e with Some s => s <= 33 | None => True end ->
    exists bytes j,
      emits (encode_image_internal P op e im) bytes tt /\ bytes_ok bytes /\
      decode bytes = Some j /\
      j_frame j = frame_of (match e_prog e with Some _ => true | None => false end)
                           (im_width im) (im_height im) cs /\
      j_app j = file_apps e (im_color im) /\
      j_qt j = [Some (map (qt_get q0) ZIGZAG); Some (map (qt_get q1) ZIGZAG); None; None] /\
      j_ri j = restart_of e /\
      log_ok im pl F cs mh mv q0 q1 (j_log j) /\
    j_scans j = body_scans e cs.
  Proof.
    intros Hopt Hs. eapply (internal_decodes P op e im pl F t0 t1 std_luma_dc std_luma_ac std_chroma_dc std_chroma_ac
      tb_ldc tb_lac tb_cdc tb_cac Him He).
    - now apply std_coded.
    - exact V_ldc.
    - exact V_lac.
    - exact V_cdc.
    - exact V_cac.
  Qed.
End Std.
