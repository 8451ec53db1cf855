(** The size of the entropy-coded data with optimized tables: C45. *)
From Verif Require Import T81 SFile SEncode SSize PRound PBytesF PPlat PSmall SHuff ThmRound ThmHuff ThmBytes.
From Coq Require Import ZifyBool ZifyNat.

(** At most 146,467 data units, or some call with this image does not end in the index panic of the table
    construction (C43). *)
Definition coded (quality : Z) (calls : list call) (color : jcolor) (w h : Z) (pl : planes) : Prop :=
  few_blocks (settings_of quality calls) color w h \/
  exists P im, valid_buffer P im pl /\ im_color im = color /\ im_width im = w /\ im_height im = h /\
    snd (exec (run_encode_image P quality calls im)) <> Panicked PIndex.

(** ** C45
    What encode writes with optimized tables is the reference encoder's file with some tables t; with any other
    tables t' that a file can hold and that have a code for every symbol of the image, the entropy-coded data of the
    same coefficients in the same scans takes at least as many bits, up to the difference of the longest code lengths.
    (Beyond 66 data units this holds when none of the tables in the file has a code of 16 bits: the limit of
    16 bits of T.81 makes the generator give up optimality.) *)
Theorem C45_smallest_image : forall quality calls color w h pl,
  opt_any quality calls -> byte_planes color w h pl -> coded quality calls color w h pl ->
  countable (settings_of quality calls) color w h -> no_restarts (settings_of quality calls) color w h ->
  let s := settings_of quality calls in
  let f := frame_for s color w h in
  exists t,
    (forall P im, valid_buffer P im pl -> im_color im = color -> im_width im = w -> im_height im = h ->
       exec (run_encode_image P quality calls im) = (jpeg_file t s color pl w h, Ok tt)) /\
    (Forall short_codes (in_use t f) \/ block_count f <= 66 ->
     forall t', Forall storable (in_use t' f) -> covers int_dct t' s color pl w h ->
       entropy_bits int_dct t s color pl w h + longest_codes t f
       <= entropy_bits int_dct t' s color pl w h + longest_codes t' f).
Proof.
  intros quality calls color w h pl C Hpl Hg Hc Hno s f.
  assert (T : has_tables s fdct_pure (plane_image color w h pl) pl).
  { destruct Hg as [Hfew|(P & im & V & Ec & Ew & Eh & N)].
    - exact (opt_tables_with s (settings_of_wf quality calls (oa_calls _ _ C)) (oa_huffman _ _ C) default_operations fdct_pure default_op_ok (plane_image color w h pl) pl (plane_image_ok _ _ _ _ Hpl) Hfew).
    - rewrite run_encode_image_eq in N by apply C. fold s in N. rewrite <- Ec, <- Ew, <- Eh in Hc.
      destruct (generated_tables s (settings_of_wf quality calls (oa_calls _ _ C)) (oa_huffman _ _ C) default_operations fdct_pure default_op_ok P im pl
        (vb_platform _ _ _ V) (vb_image _ _ _ V) (vb_fits _ _ _ V) Hc (fun _ => or_intror N)) as (d0 & a0 & d1 & a1 & bd0 & ba0 & bd1 & ba1 & Ht).
      exists d0, a0, d1, a1, bd0, ba0, bd1, ba1. exact (opt_tables_same _ im (plane_image color w h pl) _ _ _ _ _ _ _ _ _ _ _ _ _ Ec Ew Eh Ht). }
  destruct T as (d0 & a0 & d1 & a1 & bd0 & ba0 & bd1 & ba1 & Ht).
  exists (tables_of d0 a0 d1 a1). split.
  - intros P im V Ec Ew Eh. rewrite run_encode_image_eq by apply C. fold s.
    pose proof (opt_tables_same _ (plane_image color w h pl) im _ _ _ _ _ _ _ _ _ _ _ _ _ (eq_sym Ec) (eq_sym Ew) (eq_sym Eh) Ht) as Ht'.
    rewrite <- Ec, <- Ew, <- Eh in Hno |- *.
    exact (opt_bytes_with s (settings_of_wf quality calls (oa_calls _ _ C)) (oa_huffman _ _ C) default_operations fdct_pure int_dct default_op_ok fdct_is_int_dct P im pl _ _ _ _ _ _ _ _
      (vb_platform _ _ _ V) (vb_image _ _ _ V) (vb_fits _ _ _ V) Hno Ht').
  - intros Hsm. apply (smallest s (settings_of_wf quality calls (oa_calls _ _ C)) (oa_huffman _ _ C)
      default_operations fdct_pure int_dct default_op_ok fdct_is_int_dct (plane_image color w h pl) pl (plane_image_ok _ _ _ _ Hpl) Hno Hc
      _ _ _ _ _ _ _ _ Ht).
    destruct Hsm as [Hsm|Hsm]; [left; exact Hsm|right]. cbn [plane_image im_color im_width im_height]. fold f.
    clear - Hsm. generalize dependent (block_count f). intros n Hsm. lia.
Qed.
Theorem C45_smallest : forall quality calls data w h c,
  opt_any quality calls ->
  countable (settings_of quality calls) (spec_color c) w h -> no_restarts (settings_of quality calls) (spec_color c) w h ->
  (exists P, valid_input P data w h c /\
     tables_generated (settings_of quality calls) (spec_color c) w h (run_encode P quality calls data w h c)) ->
  let s := settings_of quality calls in
  let color := spec_color c in
  let pl := spec_plane c data w in
  let f := frame_for s color w h in
  exists t,
    (forall P, valid_input P data w h c -> exec (run_encode P quality calls data w h c) = (jpeg_file t s color pl w h, Ok tt)) /\
    (Forall short_codes (in_use t f) \/ block_count f <= 66 ->
     forall t', Forall storable (in_use t' f) -> covers int_dct t' s color pl w h ->
       entropy_bits int_dct t s color pl w h + longest_codes t f
       <= entropy_bits int_dct t' s color pl w h + longest_codes t' f).
Proof.
  intros quality calls data w h c C Hc Hno (P0 & V0 & G0).
  destruct (C45_smallest_image quality calls (spec_color c) w h (spec_plane c data w) C) as (t & Ht & Hb); try assumption.
  { pose proof (valid_image _ _ _ _ _ V0) as Vi. split; [apply V0|]. split; [apply V0|].
    pose proof (io_range _ _ Vi) as Hr. rewrite image_of_width, image_of_height, image_of_color in Hr. exact Hr. }
  { destruct (G0 (oa_huffman _ _ C)) as [Hf|N]; [now left|right]. exists P0, (image_of P0 data w h c).
    split; [split; [apply V0|exact (valid_image _ _ _ _ _ V0)|rewrite image_of_width, image_of_height; apply (valid_fits _ _ _ _ _ V0)]|].
    split; [apply image_of_color|]. split; [apply image_of_width|]. split; [apply image_of_height|].
    rewrite run_encode_eq in N by (apply C || assumption). rewrite <- run_encode_image_eq in N by apply C. exact N. }
  exists t. split; [|exact Hb]. intros P V. rewrite run_encode_eq by (apply C || assumption).
  rewrite <- run_encode_image_eq by apply C. apply Ht.
  - split; [apply V|exact (valid_image _ _ _ _ _ V)|].
    rewrite image_of_width, image_of_height. apply (valid_fits _ _ _ _ _ V).
  - apply image_of_color.
  - apply image_of_width.
  - apply image_of_height.
Qed.

(** The default tables (Annex K) are among the alternatives: for every image the option costs at most 52 bits
    (25 for greyscale), less the lengths of the longest codes of the generated tables. *)
Lemma annexK_alternative quality calls color w h pl :
  opt_any quality calls -> byte_planes color w h pl -> no_restarts (settings_of quality calls) color w h ->
  let s := settings_of quality calls in let f := frame_for s color w h in
  Forall storable (in_use annexK_tables f) /\ covers int_dct annexK_tables s color pl w h /\
  longest_codes annexK_tables f = if (3 <=? length (fr_comps f))%nat then 52 else 25.
Proof.
  intros C Hpl Hno s f. split; [|split].
  - exact (annexK_storable s (oa_huffman _ _ C) (plane_image color w h pl)).
  - exact (annexK_covers s (settings_of_wf quality calls (oa_calls _ _ C)) (oa_huffman _ _ C)
      default_operations fdct_pure int_dct default_op_ok fdct_is_int_dct (plane_image color w h pl) pl (plane_image_ok _ _ _ _ Hpl) Hno).
  - exact (annexK_longest s (plane_image color w h pl)).
Qed.
Theorem C45_against_default : forall quality calls color w h pl,
  opt_any quality calls -> byte_planes color w h pl -> coded quality calls color w h pl ->
  countable (settings_of quality calls) color w h -> no_restarts (settings_of quality calls) color w h ->
  let s := settings_of quality calls in
  let f := frame_for s color w h in
  exists t,
    (forall P im, valid_buffer P im pl -> im_color im = color -> im_width im = w -> im_height im = h ->
       exec (run_encode_image P quality calls im) = (jpeg_file t s color pl w h, Ok tt)) /\
    (Forall short_codes (in_use t f) \/ block_count f <= 66 ->
       entropy_bits int_dct t s color pl w h + longest_codes t f
       <= entropy_bits int_dct annexK_tables s color pl w h + if (3 <=? length (fr_comps f))%nat then 52 else 25).
Proof.
  intros quality calls color w h pl C Hpl Hg Hc Hno s f.
  destruct (C45_smallest_image quality calls color w h pl C Hpl Hg Hc Hno) as (t & Ht & Hb).
  destruct (annexK_alternative quality calls color w h pl C Hpl Hno) as (A1 & A2 & A3).
  exists t. split; [exact Ht|]. intros Hsm. specialize (Hb Hsm _ A1 A2). fold s f in Hb, A3. rewrite A3 in Hb. exact Hb.
Qed.

(** A concrete case: hypotheses, and what the default tables cost. *)
Example C45_case :
  opt_config 60 opt_cfg /\ few_blocks (settings_of 60 opt_cfg) JYcbcr 3 2 /\ no_restarts (settings_of 60 opt_cfg) JYcbcr 3 2 /\
  (exists P, valid_input P ex_data 3 2 Rgb) /\ countable (settings_of 60 opt_cfg) JYcbcr 3 2 /\ block_count (frame_for (settings_of 60 opt_cfg) JYcbcr 3 2) <= 66.
Proof.
  split; [apply C02_config|]. split; [apply C02_config|]. split; [left; reflexivity|]. split; [exists debug64; exact ex_valid|].
  split; [apply few_countable, C02_config|].
  vm_compute. discriminate.
Qed.
Example C45_default_bits :
  entropy_bits int_dct annexK_tables (settings_of 60 opt_cfg) JYcbcr (spec_plane Rgb ex_data 3) 3 2 = 276.
Proof. vm_compute. reflexivity. Qed.
