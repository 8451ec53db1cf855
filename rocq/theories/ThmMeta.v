(** C62: metadata and image data are independent of each other. *)
From Verif Require Import MAvx2 T81 SFile SApi SAvx2 SMeta PApi PExec PEncode PBytesF PRound ThmRound ThmBytes ThmAvx2 ThmSimd.
From Coq Require Import ZArith List Bool Lia ZifyBool.
Import ListNotations.
Open Scope Z_scope.

(** What follows the metadata, as in [encode_image_internal]. *)
Definition image_program (P : platform) (op : operations) (e : encoder) (im : image) (q0 q1 : qtable) : prog unit :=
  let cs := init_components (e_sampling e) (im_color im) in
  let* _ :=
    match e_prog e with
    | Some scans => encode_image_progressive P op e scans cs im q0 q1 (bitw_new P)
    | None =>
      if e_optimize e || negb (supports_interleaved (e_sampling e))
      then encode_image_sequential P op e cs im q0 q1 (bitw_new P)
      else encode_image_interleaved P op e cs im q0 q1 (bitw_new P)
    end in
  write_marker EOI.

Section Same.
  Variables (q : Z) (cs0 : list component) (qt : list qtype) (hf : list (htab * htab)) (sa : sampling) (pr re : option Z) (o : bool).
  Variables (d d' : density) (sg sg' : list (Z * list Z)).
  Let e := {| e_density := d; e_quality := q; e_components := cs0; e_qtypes := qt; e_huff := hf; e_sampling := sa; e_prog := pr; e_restart := re; e_optimize := o; e_segments := sg |}.
  Let e' := {| e_density := d'; e_quality := q; e_components := cs0; e_qtypes := qt; e_huff := hf; e_sampling := sa; e_prog := pr; e_restart := re; e_optimize := o; e_segments := sg' |}.
  Lemma same_tables P cs bl : tables_for P e cs bl = tables_for P e' cs bl.
  Proof. reflexivity. Qed.
  Lemma same_header P cs ht im q0 q1 : enc_write_frame_header P e cs ht im q0 q1 = enc_write_frame_header P e' cs ht im q0 q1.
  Proof. reflexivity. Qed.
  Lemma same_sequential P op cs im q0 q1 w : encode_image_sequential P op e cs im q0 q1 w = encode_image_sequential P op e' cs im q0 q1 w.
  Proof. reflexivity. Qed.
  Lemma same_progressive P op n cs im q0 q1 w : encode_image_progressive P op e n cs im q0 q1 w = encode_image_progressive P op e' n cs im q0 q1 w.
  Proof. reflexivity. Qed.
  Lemma same_interleaved P op cs im q0 q1 w : encode_image_interleaved P op e cs im q0 q1 w = encode_image_interleaved P op e' cs im q0 q1 w.
  Proof. reflexivity. Qed.
  Lemma same_program P op im q0 q1 : image_program P op e im q0 q1 = image_program P op e' im q0 q1.
  Proof.
    unfold image_program. change (e_prog e') with (e_prog e). change (e_sampling e') with (e_sampling e). change (e_optimize e') with (e_optimize e). cbv zeta.
    destruct (e_prog e) as [n|]; [now rewrite same_progressive|]. destruct (e_optimize e || _); [now rewrite same_sequential|now rewrite same_interleaved].
  Qed.
End Same.

Lemma enc_same s s' P op im q0 q1 : same_but_metadata s s' -> image_program P op (enc_of s') im q0 q1 = image_program P op (enc_of s) im q0 q1.
Proof.
  intros [H1 H2 H3 H4 H5 H6 H7]. unfold enc_of. rewrite H1, H2, H3, H4, H5, H6, H7. apply same_program.
Qed.
Lemma internal_split P op s im : settings_wf s -> im_width im <> 0 -> im_height im <> 0 ->
  exec (encode_image_internal P op (enc_of s) im)
  = let '(o, r) := exec (image_program P op (enc_of s) im (qtable_of (s_luma s) (s_quality s) true) (qtable_of (s_chroma s) (s_quality s) false)) in
    ([255; 216] ++ metadata s (im_color im) ++ o, r).
Proof.
  intros Hs Hw Hh. pose proof (enc_of_ok s Hs) as He. unfold encode_image_internal.
  replace ((im_width im =? 0) || (im_height im =? 0)) with false by lia.
  rewrite (eo_qtypes _ _ _ He), (eo_comps _ _ _ He).
  change (index [s_luma s; s_chroma s] 0) with (@Ret qtype (s_luma s)). change (index [s_luma s; s_chroma s] 1) with (@Ret qtype (s_chroma s)).
  cbn [bind app]. rewrite !new_with_quality_ret. cbn [bind].
  change (e_quality (enc_of s)) with (s_quality s).
  pose proof (apps_bytes P (enc_of s) (im_color im) _ _ He) as Ha. rewrite (apps_for_eq s (im_color im) Hs) in Ha.
  assert (Em : flat_map render (map app_part (apps_for s (im_color im))) = metadata s (im_color im)).
  { clear. unfold metadata. induction (apps_for s (im_color im)) as [|[nr d] l IH]; [reflexivity|]. cbn [map flat_map]. rewrite IH. reflexivity. }
  rewrite Em in Ha. clear Em.
  set (q0 := qtable_of (s_luma s) (s_quality s) true). set (q1 := qtable_of (s_chroma s) (s_quality s) false).
  set (K := image_program P op (enc_of s) im q0 q1).
  assert (G : exec (bind (write_header (e_density (enc_of s)) ;;;
      (match im_color im with
       | JCmyk => write_segment P (APP 14) ADOBE_UNKNOWN
       | JYcck => write_segment P (APP 14) ADOBE_YCCK
       | _ => Ret tt
       end) ;;;
      foldM (fun _ '(nr, data) => write_segment P (APP nr) data) (e_segments (enc_of s)) tt) (fun _ => K))
    = let '(o, r) := exec K in (metadata s (im_color im) ++ o, r)).
  { rewrite exec_bind. unfold emits in Ha. rewrite Ha. reflexivity. }
  rewrite exec_bind. assert (Es : exec (write_marker SOI) = ([255; 216], Ok tt)) by (vm_compute; reflexivity). rewrite Es. clear Es.
  match goal with |- (let '(o', r) := exec ?m in _) = _ => assert (E2 : exec m = let '(o, r) := exec K in (metadata s (im_color im) ++ o, r)) end.
  { rewrite <- G. rewrite bind_assoc. apply exec_bind_ext. intros _. rewrite bind_assoc. reflexivity. }
  rewrite E2. destruct (exec K) as [o r]. reflexivity.
Qed.
Lemma metadata_core P op quality calls quality' calls' im : Forall call_wf calls -> Forall call_wf calls' ->
  same_but_metadata (settings_of quality calls) (settings_of quality' calls') -> im_width im <> 0 -> im_height im <> 0 ->
  differ_in_metadata (settings_of quality calls) (settings_of quality' calls') (im_color im)
    (exec (encode_image_internal P op (enc_of (settings_of quality calls)) im)) (exec (encode_image_internal P op (enc_of (settings_of quality' calls')) im)).
Proof.
  intros C C' H Hw Hh. rewrite !internal_split by (try apply settings_of_wf; assumption).
  rewrite (enc_same _ _ P op im _ _ H). rewrite (sm_luma _ _ H), (sm_chroma _ _ H), (sm_quality _ _ H).
  destruct (exec (image_program _ _ _ _ _ _)) as [o r]. split; [reflexivity|]. exists o. split; reflexivity.
Qed.

(** ** C62 *)
(** Whatever the image buffer does, and whatever the outcome. *)
Theorem C62_metadata_image : forall P quality calls quality' calls' im, Forall call_wf calls -> Forall call_wf calls' ->
  same_but_metadata (settings_of quality calls) (settings_of quality' calls') -> im_width im <> 0 -> im_height im <> 0 ->
  differ_in_metadata (settings_of quality calls) (settings_of quality' calls') (im_color im)
    (exec (run_encode_image P quality calls im)) (exec (run_encode_image P quality' calls' im)).
Proof. intros P quality calls quality' calls' im C C' H Hw Hh. rewrite !run_encode_image_eq by assumption. now apply metadata_core. Qed.
Theorem C62_metadata_image_simd : forall P quality calls quality' calls' im, Forall call_wf calls -> Forall call_wf calls' ->
  same_but_metadata (settings_of quality calls) (settings_of quality' calls') -> im_width im <> 0 -> im_height im <> 0 ->
  differ_in_metadata (settings_of quality calls) (settings_of quality' calls') (im_color im)
    (exec (run_encode_image_avx2 P quality calls im)) (exec (run_encode_image_avx2 P quality' calls' im)).
Proof.
  intros P quality calls quality' calls' im C C' H Hw Hh. unfold run_encode_image_avx2. rewrite !build_ret by assumption. cbn [bind].
  unfold encode_image_avx2. now apply metadata_core.
Qed.
Theorem C62_metadata : forall P quality calls quality' calls' data w h c, Forall call_wf calls -> Forall call_wf calls' ->
  same_but_metadata (settings_of quality calls) (settings_of quality' calls') -> valid_input P data w h c ->
  differ_in_metadata (settings_of quality calls) (settings_of quality' calls') (spec_color c)
    (exec (run_encode P quality calls data w h c)) (exec (run_encode P quality' calls' data w h c)).
Proof.
  intros P quality calls quality' calls' data w h c C C' H V. rewrite !run_encode_eq by assumption. rewrite <- (image_of_color P data w h c).
  pose proof (vi_width _ _ _ _ _ V). pose proof (vi_height _ _ _ _ _ V).
  apply metadata_core; try assumption; rewrite ?image_of_width, ?image_of_height; lia.
Qed.
Theorem C62_metadata_simd : forall P quality calls quality' calls' data w h c, Forall call_wf calls -> Forall call_wf calls' ->
  same_but_metadata (settings_of quality calls) (settings_of quality' calls') -> valid_input P data w h c ->
  differ_in_metadata (settings_of quality calls) (settings_of quality' calls') (spec_color c)
    (exec (run_encode_avx2 P quality calls data w h c)) (exec (run_encode_avx2 P quality' calls' data w h c)).
Proof.
  intros P quality calls quality' calls' data w h c C C' H V. rewrite !run_avx2_eq by assumption. rewrite <- (image_of_color P data w h c).
  pose proof (vi_width _ _ _ _ _ V). pose proof (vi_height _ _ _ _ _ V).
  apply metadata_core; try assumption; rewrite ?image_of_width, ?image_of_height; lia.
Qed.

(** ** C09: the accepted segments in the file
    The two bytes of the length field count themselves and the data. *)
Definition app_bytes (seg : Z * list Z) : list Z :=
  let n := Z.of_nat (length (snd seg)) + 2 in [255; 224 + fst seg; n / 256; n mod 256] ++ snd seg.
Lemma app_bytes_eq l : flat_map (fun '(nr, d) => render (Segment (224 + nr) d)) l = flat_map app_bytes l.
Proof. induction l as [|[nr d] l IH]; [reflexivity|]. cbn [flat_map]. rewrite IH. reflexivity. Qed.
(** After SOI, the JFIF segment and (for four components) the Adobe segment come the segments of all accepted calls, in
    call order and nothing between them; whatever the image and the outcome. *)
Lemma same_self s : same_but_metadata s s.
Proof. constructor; reflexivity. Qed.
Theorem C09_in_file : forall P quality calls data w h c, Forall call_wf calls -> valid_input P data w h c ->
  let fixed := (0, jfif (s_density (settings_of quality calls))) :: match spec_color c with JCmyk => [(14, adobe 0)] | JYcck => [(14, adobe 2)] | _ => [] end in
  exists rest, fst (exec (run_encode P quality calls data w h c)) = [255; 216] ++ flat_map app_bytes fixed ++ flat_map app_bytes (flat_map segments_of calls) ++ rest.
Proof.
  intros P quality calls data w h c C V fixed. destruct (C62_metadata P quality calls quality calls data w h c C C (same_self _) V) as (_ & rest & E & _).
  exists rest. rewrite E. unfold metadata, apps_for. rewrite app_bytes_eq. unfold fixed. rewrite app_comm_cons, flat_map_app, <- !app_assoc. reflexivity.
Qed.
Theorem C09_in_file_simd : forall P quality calls data w h c, Forall call_wf calls -> valid_input P data w h c ->
  let fixed := (0, jfif (s_density (settings_of quality calls))) :: match spec_color c with JCmyk => [(14, adobe 0)] | JYcck => [(14, adobe 2)] | _ => [] end in
  exists rest, fst (exec (run_encode_avx2 P quality calls data w h c)) = [255; 216] ++ flat_map app_bytes fixed ++ flat_map app_bytes (flat_map segments_of calls) ++ rest.
Proof.
  intros P quality calls data w h c C V fixed. destruct (C62_metadata_simd P quality calls quality calls data w h c C C (same_self _) V) as (_ & rest & E & _).
  exists rest. rewrite E. unfold metadata, apps_for. rewrite app_bytes_eq. unfold fixed. rewrite app_comm_cons, flat_map_app, <- !app_assoc. reflexivity.
Qed.
Theorem C09_in_file_image : forall P quality calls im, Forall call_wf calls -> im_width im <> 0 -> im_height im <> 0 ->
  let fixed := (0, jfif (s_density (settings_of quality calls))) :: match im_color im with JCmyk => [(14, adobe 0)] | JYcck => [(14, adobe 2)] | _ => [] end in
  exists rest, fst (exec (run_encode_image P quality calls im)) = [255; 216] ++ flat_map app_bytes fixed ++ flat_map app_bytes (flat_map segments_of calls) ++ rest.
Proof.
  intros P quality calls im C Hw Hh fixed. destruct (C62_metadata_image P quality calls quality calls im C C (same_self _) Hw Hh) as (_ & rest & E & _).
  exists rest. rewrite E. unfold metadata, apps_for. rewrite app_bytes_eq. unfold fixed. rewrite app_comm_cons, flat_map_app, <- !app_assoc. reflexivity.
Qed.
Example C09_in_file_case :
  flat_map app_bytes (flat_map segments_of [CSegment 2 [1; 2; 3]; CSegment 0 [9]; CDensity DensityNone; CSegment 15 []])
  = [255; 226; 0; 5; 1; 2; 3; 255; 239; 0; 2].
Proof. vm_compute. reflexivity. Qed.

(** A progressive configuration with and without metadata: the hypotheses are met, and the files differ in size by
    that of the two segments (a comment of 3 bytes and an ICC profile of 2). *)
Definition plain_calls : list call := [CProgressive true; CRestart 1].
Definition meta_calls : list call := [CIcc [7; 8]; CProgressive false; CDensity (DensityInch 72 72); CRestart 1; CSegment 3 [1; 255; 217]; CProgressive true].
Example C62_case :
  Forall call_wf plain_calls /\ Forall call_wf meta_calls /\ same_but_metadata (settings_of 80 plain_calls) (settings_of 80 meta_calls) /\
  metadata (settings_of 80 meta_calls) JYcbcr <> metadata (settings_of 80 plain_calls) JYcbcr /\
  Z.of_nat (length (fst (exec (run_encode debug64 80 meta_calls ex_data 3 2 Rgb))))
  = Z.of_nat (length (fst (exec (run_encode debug64 80 plain_calls ex_data 3 2 Rgb)))) + (4 + 14 + 2) + (4 + 3).
Proof.
  split; [|split; [|split; [|split]]].
  - repeat constructor; cbn; unfold is_u16; lia.
  - repeat (apply Forall_cons; [cbn; unfold is_u16, is_u8; repeat split; repeat constructor; try lia|]). constructor.
  - constructor; reflexivity.
  - vm_compute. discriminate.
  - vm_compute. reflexivity.
Qed.
