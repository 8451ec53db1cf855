(** Theorems about the SIMD build (feature "simd", processor with AVX2): properties C32, C33. *)
From Verif Require Import MAvx2 SAvx2 SRoom PAvxDct PYcc PRoom PRound PBytesF ThmRound ThmHuff ThmBytes SEncode T81 SApi SHuff SDct.
From Coq Require Import ZifyBool ZifyNat.
Local Ltac Zify.zify_post_hook ::= Z.div_mod_to_equations.

(** ** C32: colour conversion *)
(** One row: with room in the buffers and enough data, the SIMD conversion appends to the three buffers exactly
    the bytes the scalar one appends, and nothing is read outside the slice or written outside the buffers
    (it would be the outcome [Panicked PUndefined]). *)
Theorem C32_same_row : forall P data w h c cap y bs,
  valid_input P data w h c -> call_in_order cap (image_of P data w h c) y bs ->
  exec (im_fill (image_of_avx2 P cap data w h c) y bs) = exec (im_fill (image_of P data w h c) y bs).
Proof. exact image_avx2_fill. Qed.

(** and these bytes are the JFIF conversion of the pixels *)
Theorem C32_row_bytes : forall P data w h c cap y bs,
  valid_input P data w h c -> call_in_order cap (image_of P data w h c) y bs ->
  exec (im_fill (image_of_avx2 P cap data w h c) y bs)
  = ([], Ok (append_row (Z.to_nat (num_components (spec_color c))) (spec_plane c data w) w y bs)).
Proof.
  intros P data w h c cap y bs V H. rewrite C32_same_row by assumption. destruct H as (Hy & Hb & _).
  rewrite (io_fill _ _ (valid_image _ _ _ _ _ V) y bs Hy Hb), image_of_color, image_of_width. reflexivity.
Qed.

(** Whole files: the capacity the encoder reserves is always enough, for every configuration, so that a run
    with the SIMD image buffer is the run with the scalar image buffer. *)
Lemma run_avx2_eq P quality calls data w h c : Forall call_wf calls -> valid_input P data w h c ->
  exec (run_encode_avx2 P quality calls data w h c)
  = exec (encode_image_internal P avx2_operations (enc_of (settings_of quality calls)) (image_of P data w h c)).
Proof.
  intros Hc V. unfold run_encode_avx2. rewrite build_ret by assumption. cbn [bind].
  destruct (valid_fits _ _ _ _ _ V) as [F1 F2].
  pose proof (vi_enough _ _ _ _ _ V) as H1. pose proof (vi_width _ _ _ _ _ V). pose proof (vi_height _ _ _ _ _ V).
  assert (Hu : 2 ^ (ubits P - 1) < 2 ^ ubits P) by (destruct (vi_platform _ _ _ _ _ V) as [-> | ->]; reflexivity).
  unfold encode_avx2, ck_usize. rewrite ck_u_ret by nia. cbn [bind]. rewrite spec_bpp_eq, ck_u_ret by lia. cbn [bind]. unfold zlen.
  replace (Z.of_nat (length data) <? w * h * spec_bpp c) with false by lia.
  unfold encode_image_avx2. rewrite row_capacity_exact by (try assumption; try reflexivity; apply V).
  set (im := image_of P data w h c). set (e := enc_of (settings_of quality calls)).
  apply internal_room with (pl := spec_plane c data w) (cap := exact_capacity e (im_color im) w h).
  - now apply valid_image.
  - unfold im. now destruct c.
  - unfold im. now destruct c.
  - unfold im. now destruct c.
  - intros y bs Hio. now apply image_avx2_fill.
  - reflexivity.
  - unfold im. rewrite image_of_width, image_of_height. lia.
Qed.

Theorem C32_same_run : forall P quality calls data w h c,
  Forall call_wf calls -> valid_input P data w h c ->
  exec (run_encode_avx2 P quality calls data w h c)
  = exec (run_encode_image_avx2 P quality calls (image_of P data w h c)).
Proof.
  intros P quality calls data w h c Hc V. rewrite run_avx2_eq by assumption.
  unfold run_encode_image_avx2. rewrite build_ret by assumption. reflexivity.
Qed.

(** In particular no undefined behaviour. *)
Theorem C32_no_undefined : forall P quality calls data w h c,
  std_config quality calls -> valid_input P data w h c ->
  snd (exec (run_encode_avx2 P quality calls data w h c)) = Ok tt.
Proof.
  intros P quality calls data w h c C V. rewrite run_avx2_eq by (apply C || assumption).
  destruct (std_image_with P (vi_platform _ _ _ _ _ V) _ (settings_of_wf quality calls (sc_calls _ _ C))
    (sc_luma _ _ C) (sc_chroma _ _ C) (sc_huffman _ _ C) (sc_scans _ _ C)
    avx2_operations avx2_pure avx2_dct _ _ avx2_op_ok avx2_is_dct (valid_image _ _ _ _ _ V)) as (b & j & H & _).
  { rewrite image_of_width, image_of_height. apply (valid_fits _ _ _ _ _ V). }
  unfold emits in H. now rewrite H.
Qed.

(** It matters that the length check precedes: on a 32-bit target in a release build the product
    width * height * 4 wraps around, an empty slice is accepted (compare C34) and the SIMD conversion reads
    outside of it. *)
Theorem C32_undefined_on_32_bit :
  snd (exec (run_encode_avx2 release32 90 [] [] 32768 32768 Rgba)) = Panicked PUndefined.
Proof. vm_compute. reflexivity. Qed.
(** The scalar code panics instead. *)
Example C32_scalar_32_bit : snd (exec (run_encode release32 90 [] [] 32768 32768 Rgba)) = Panicked PIndex.
Proof. vm_compute. reflexivity. Qed.

(** A concrete row: eleven RGBA pixels, so that both loops run. *)
Definition ex_pixels : list Z := map (fun i => (i * 37 + i * i * 11) mod 256) (zrange 88).
Example C32_case :
  valid_input debug64 ex_pixels 11 2 Rgba /\ call_in_order 12 (image_of debug64 ex_pixels 11 2 Rgba) 1 [[7]; []; [8]; []] /\
  exec (im_fill (image_of_avx2 debug64 12 ex_pixels 11 2 Rgba) 1 [[7]; []; [8]; []])
  = exec (im_fill (image_of debug64 ex_pixels 11 2 Rgba) 1 [[7]; []; [8]; []]).
Proof.
  split; [|split].
  - constructor; try lia; try (vm_compute; (discriminate || reflexivity)).
    + now right.
    + apply Forall_forall. intros b Hb. apply in_map_iff in Hb as (i & <- & _). unfold is_u8. lia.
  - split; [cbn; lia|]. split; [reflexivity|]. intros [|[|[|i]]] Hi; cbn in *; lia.
  - vm_compute. reflexivity.
Qed.
(** Without room it is undefined. *)
Example C32_no_room : exec (im_fill (image_of_avx2 debug64 11 ex_pixels 11 2 Rgba) 1 [[7]; []; [8]; []]) = ([], Panicked PUndefined).
Proof. vm_compute. reflexivity. Qed.

(** ** C33: the transform *)
(** For every block of samples the SIMD transform gives the coefficients of the scalar one, except in rows 0
    and 4 and odd columns, where it may be one less. *)
Theorem C33_coefficients : forall P b, samples_ok b ->
  exists a, exec (fdct P b) = ([], Ok a) /\
    forall v u, (v < 8)%nat -> (u < 8)%nat ->
      let d := nth (8 * v + u) a 0 - nth (8 * v + u) (fdct_avx2 b) 0 in
      0 <= d <= 1 /\ (d = 1 -> (v = 0 \/ v = 4)%nat /\ Nat.odd u = true).
Proof.
  intros P b Hs. exists (fdct_pure b). split; [rewrite (fdct_ret P b Hs); reflexivity|]. intros v u Hv Hu.
  assert (Eb : b = block_of (fun y x => nth (8 * y + x) b 0)).
  { destruct Hs as [Hl _]. unfold block_of. do 64 (destruct b as [|? b]; [discriminate Hl|]). destruct b; [reflexivity|discriminate Hl]. }
  set (s := fun y x => nth (8 * y + x) b 0) in *.
  rewrite fdct_avx2_ok by assumption.
  pose proof (fdct_is_int_dct s v u Hv Hu) as E1. pose proof (avx2_is_dct s v u Hv Hu) as E2. rewrite <- Eb in E1, E2.
  unfold zn in E1, E2. rewrite Nat2Z.id in E1, E2. cbv zeta. rewrite E1, E2.
  destruct (dct_difference s v u Hv Hu) as [D1 D2]. split; [exact D1|]. intros D.
  destruct (unrounded v u) eqn:E.
  - unfold unrounded in E. apply andb_true_iff in E as [E ->]. split; [|reflexivity].
    apply orb_true_iff in E as [E|E]; apply Nat.eqb_eq in E; auto.
  - rewrite D2 in D by reflexivity. lia.
Qed.

(** It does differ. *)
Definition ex_block : list Z := map (fun i => (i * 37 + i * i * 11) mod 256 - 128) (zrange 64).
Example C33_block_differs : samples_ok ex_block /\
  exists a, exec (fdct debug64 ex_block) = ([], Ok a) /\
    filter (fun i => negb (zn a i =? zn (fdct_avx2 ex_block) i)) (zrange 64) = [3; 5; 7; 35; 37].
Proof.
  split.
  - split; [reflexivity|]. apply Forall_forall. intros v Hv. apply in_map_iff in Hv as (i & <- & _). lia.
  - eexists. split; [vm_compute; reflexivity|]. vm_compute. reflexivity.
Qed.

(** So do files: the property "the same file with and without simd" is false. *)
Theorem C33_files_differ : exists data, valid_input debug64 data 8 8 Luma /\
  snd (exec (run_encode debug64 100 [] data 8 8 Luma)) = Ok tt /\
  snd (exec (run_encode_avx2 debug64 100 [] data 8 8 Luma)) = Ok tt /\
  fst (exec (run_encode debug64 100 [] data 8 8 Luma)) <> fst (exec (run_encode_avx2 debug64 100 [] data 8 8 Luma)).
Proof.
  exists (map (fun i => (i * 37 + i * i * 11) mod 256) (zrange 64)). split; [|split; [|split]].
  - constructor; try lia; try (vm_compute; (discriminate || reflexivity)).
    + now right.
    + apply Forall_forall. intros b Hb. apply in_map_iff in Hb as (i & <- & _). unfold is_u8. lia.
  - vm_compute. reflexivity.
  - vm_compute. reflexivity.
  - intros H. apply (f_equal (fun l => nth 0 l 0 + fold_left Z.add l 0)) in H. revert H. vm_compute. discriminate.
Qed.

(** The SIMD build still writes the file of the reference encoder, with its own transform. *)
Theorem C33_simd_exact_bytes : forall P quality calls data w h c,
  Forall call_wf calls -> s_optimize (settings_of quality calls) = false -> valid_input P data w h c ->
  exec (run_encode_avx2 P quality calls data w h c)
  = (jpeg_file_with avx2_dct annexK_tables (settings_of quality calls) (spec_color c) (spec_plane c data w) w h, Ok tt).
Proof.
  intros P quality calls data w h c C O V. rewrite run_avx2_eq by assumption.
  pose proof (std_bytes_with P (vi_platform _ _ _ _ _ V) _ (settings_of_wf quality calls C) O
    avx2_operations avx2_pure avx2_dct _ _ avx2_op_ok avx2_is_dct (valid_image _ _ _ _ _ V)) as H.
  unfold emits in H. rewrite H.
  - unfold jpeg_file_with, spec_cf. rewrite image_of_width, image_of_height, image_of_color. reflexivity.
  - rewrite image_of_width, image_of_height. apply (valid_fits _ _ _ _ _ V).
Qed.

(** and a decoder finds the coefficients of that transform: the round trip of C01, C02 for the SIMD build. *)
Theorem C33_simd_round_trip : forall P quality calls data w h c,
  std_config quality calls -> valid_input P data w h c ->
  exists bytes j,
    exec (run_encode_avx2 P quality calls data w h c) = (bytes, Ok tt) /\ Forall is_u8 bytes /\
    decode bytes = Some j /\
    decoded_with avx2_dct (settings_of quality calls) (spec_color c) w h (spec_plane c data w) j.
Proof.
  intros P quality calls data w h c C V. rewrite run_avx2_eq by (apply C || assumption).
  destruct (std_image_with P (vi_platform _ _ _ _ _ V) _ (settings_of_wf quality calls (sc_calls _ _ C))
    (sc_luma _ _ C) (sc_chroma _ _ C) (sc_huffman _ _ C) (sc_scans _ _ C)
    avx2_operations avx2_pure avx2_dct _ _ avx2_op_ok avx2_is_dct (valid_image _ _ _ _ _ V)) as (b & j & H).
  { rewrite image_of_width, image_of_height. apply (valid_fits _ _ _ _ _ V). }
  exists b, j. rewrite image_of_width, image_of_height, image_of_color in H. exact H.
Qed.
Theorem C33_simd_round_trip_image : forall P quality calls im pl,
  std_config quality calls -> valid_buffer P im pl ->
  exists bytes j,
    exec (run_encode_image_avx2 P quality calls im) = (bytes, Ok tt) /\ Forall is_u8 bytes /\
    decode bytes = Some j /\
    decoded_with avx2_dct (settings_of quality calls) (im_color im) (im_width im) (im_height im) pl j.
Proof.
  intros P quality calls im pl C V. unfold run_encode_image_avx2. rewrite build_ret by apply C.
  exact (std_image_with P (vb_platform _ _ _ V) _ (settings_of_wf quality calls (sc_calls _ _ C))
    (sc_luma _ _ C) (sc_chroma _ _ C) (sc_huffman _ _ C) (sc_scans _ _ C)
    avx2_operations avx2_pure avx2_dct im pl avx2_op_ok avx2_is_dct (vb_image _ _ _ V) (vb_fits _ _ _ V)).
Qed.
Theorem C33_simd_round_trip_optimized : forall P quality calls data w h c,
  opt_config quality calls -> valid_input P data w h c ->
  few_blocks (settings_of quality calls) (spec_color c) w h ->
  no_restarts (settings_of quality calls) (spec_color c) w h ->
  exists bytes j,
    exec (run_encode_avx2 P quality calls data w h c) = (bytes, Ok tt) /\ Forall is_u8 bytes /\
    decode bytes = Some j /\
    decoded_with avx2_dct (settings_of quality calls) (spec_color c) w h (spec_plane c data w) j.
Proof.
  intros P quality calls data w h c C V Hf Hno. rewrite run_avx2_eq by (apply C || assumption).
  destruct (opt_image_with P quality calls avx2_operations avx2_pure avx2_dct (image_of P data w h c) (spec_plane c data w) C
    (vi_platform _ _ _ _ _ V) avx2_op_ok avx2_is_dct (valid_image _ _ _ _ _ V)) as (b & j & H);
    rewrite ?image_of_width, ?image_of_height, ?image_of_color; try assumption.
  { apply (valid_fits _ _ _ _ _ V). }
  exists b, j. rewrite image_of_width, image_of_height, image_of_color in H. exact H.
Qed.

(** How far apart the decoded coefficients of the two builds can be: none but those in rows 0 and 4 and odd
    columns differ, and those by at most one, at any quality. *)
Lemma quantize_step d v : 8 <= d <= 16384 -> 0 <= int_quantize d (v + 1) - int_quantize d v <= 1.
Proof.
  intros Hd. unfold int_quantize. change (2 ^ 15) with 32768.
  assert (Hr : 2 <= recip d <= 4096 /\ 2 * (recip d * d) <= 65536 + d - 1).
  { unfold recip. change (2 ^ 15) with 32768.
    pose proof (Z.div_mod (2 * 32768 + d - 1) (2 * d) ltac:(lia)) as E. pose proof (Z.mod_pos_bound (2 * 32768 + d - 1) (2 * d) ltac:(lia)) as B.
    set (r := (2 * 32768 + d - 1) / (2 * d)) in *. set (m := (2 * 32768 + d - 1) mod (2 * d)) in *. clearbody r m. nia. }
  assert (Hb : 0 <= bias d <= d / 2 + 1) by (unfold bias; destruct (_ <? _); lia).
  assert (Hbr : (1 + bias d) * recip d < 32768) by nia.
  set (r := recip d) in *. set (b := bias d) in *. clearbody r b. destruct Hb as [Hb _].
  assert (S : forall x, 0 <= ((x + 1 + b) * r) / 32768 - ((x + b) * r) / 32768 <= 1).
  { intros x. replace ((x + 1 + b) * r) with ((x + b) * r + r) by ring. set (t := (x + b) * r). clearbody t. lia. }
  destruct (Z.lt_trichotomy v (-1)) as [L|[->|L]].
  - rewrite !Z.sgn_neg by lia. specialize (S (- v - 1)). replace (- v - 1 + 1 + b) with (Z.abs v + b) in S by lia.
    replace (- v - 1 + b) with (Z.abs (v + 1) + b) in S by lia. lia.
  - assert (E : (1 + b) * r / 32768 = 0) by (apply Z.div_small; nia). change (-1 + 1) with 0. cbn [Z.sgn Z.abs]. rewrite E. lia.
  - destruct (Z.eq_dec v 0) as [->|Hn].
    + change (0 + 1) with 1. cbn [Z.sgn Z.abs]. rewrite (Z.div_small ((1 + b) * r) 32768); [lia|]. nia.
    + rewrite !Z.sgn_pos by lia. specialize (S v). rewrite !Z.abs_eq by lia. lia.
Qed.

Lemma quantizer_range s tq i : 1 <= quantizer s tq i <= 2048.
Proof. unfold quantizer, quantizer_of, scaled. cbv zeta. destruct (tq =? 0); [destruct (s_luma s)|destruct (s_chroma s)]; lia. Qed.

Theorem C33_decoded_difference : forall s color pl w h ci c by_ bx k, 0 <= k < 64 ->
  let d := expected int_dct s color pl w h ci c by_ bx k - expected avx2_dct s color pl w h ci c by_ bx k in
  0 <= d <= 1 /\ (d = 1 -> let '(v, u) := zigzag_pos k in (v = 0 \/ v = 4)%nat /\ Nat.odd u = true).
Proof.
  intros s color pl w h ci c by_ bx k Hk. unfold expected.
  pose proof (zigzag_pos_range k Hk) as Hr. destruct (zigzag_pos k) as [v u]. destruct Hr as [Hv Hu]. cbv zeta.
  set (bl := block_sample _ _ _ _ _ _ _ _).
  pose proof (quantizer_range s (co_tq c) (Z.of_nat (8 * v + u))) as Hq. set (q := quantizer _ _ _) in *. clearbody q.
  destruct (dct_difference bl v u Hv Hu) as [D1 D2].
  assert (E : int_dct bl v u = avx2_dct bl v u \/ int_dct bl v u = avx2_dct bl v u + 1) by lia.
  destruct E as [E|E].
  - rewrite E. split; lia.
  - rewrite E. split; [apply quantize_step; lia|]. intros _. destruct (unrounded v u) eqn:Er.
    + unfold unrounded in Er. apply andb_true_iff in Er as [Er ->]. split; [|reflexivity].
      apply orb_true_iff in Er as [Er|Er]; apply Nat.eqb_eq in Er; auto.
    + rewrite D2 in E by reflexivity. lia.
Qed.
