(** Optimized Huffman tables (C02, C03, C20, C21). *)
From Verif Require Import PRound PParts PCode PLimit POptimal POpt SHuff ThmRound T81.
From Coq Require Import ZifyBool ZifyNat Permutation.



Lemma filter_count (hist : list Z) : forall k,
  length (filter (fun i => 0 <? nth (i - k) hist 0) (seq k (length hist))) = length (filter (Z.ltb 0) hist).
Proof.
  induction hist as [|x l IH]; intros k; [reflexivity|].
  assert (E : length (filter (fun i => 0 <? nth (i - k) (x :: l) 0) (seq (S k) (length l))) = length (filter (Z.ltb 0) l)).
  { rewrite <- (IH (S k)). f_equal. apply filter_ext_in. intros i Hi. apply in_seq in Hi.
    replace (i - k)%nat with (S (i - S k))%nat by lia. reflexivity. }
  replace (seq k (length (x :: l))) with (k :: seq (S k) (length l)) by reflexivity.
  cbn [filter]. rewrite Nat.sub_diag.
  replace (nth 0 (x :: l) 0) with x by reflexivity. destruct (0 <? x); [|exact E].
  apply (f_equal S E).
Qed.

Lemma used_count hist : length hist = 257%nat -> nth 256 hist 0 = 1 -> symbol_count hist = S (length (used hist)).
Proof.
  intros Hl Hr. unfold symbol_count. rewrite <- (filter_count hist 0), Hl.
  rewrite <- (live_length hist) by lia.
  unfold live0. apply (f_equal (@length nat)), filter_ext. intros i. unfold w0. rewrite Nat.sub_0_r. reflexivity.
Qed.

Lemma used_occurs hist v : In v (used hist) <-> occurs hist v.
Proof. unfold used, occurs. rewrite filter_In, in_zrange. unfold zn. lia. Qed.

(** C20: for every histogram with fewer than 9,227,465 occurrences and at most 255 symbols (with the
    reserved one), the tables are built without a panic; they are a valid code for exactly the symbols
    that occur. *)
Theorem C20_optimized_tables : forall P hist,
  histogram hist -> total_count hist < 9227465 -> (symbol_count hist <= 255)%nat ->
  exists t, exec (new_optimized P hist) = ([], Ok t) /\
    NoDup (h_values t) /\ (forall v, In v (h_values t) <-> occurs hist v) /\
    good_code (h_length t) (h_values t) (lookup_of P t).
Proof.
  intros P hist [Hl Hc Hr Hu] Ht Hs.
  assert (Hn : forall s, 0 <= nth s hist 0).
  { intros s. destruct (Nat.lt_ge_cases s (length hist)) as [H|H]; [|rewrite nth_overflow by exact H; lia].
    rewrite Forall_forall in Hc. apply (Hc (nth s hist 0)), nth_In, H. }
  assert (H1 : (1 <= length (used hist) <= 254)%nat).
  { rewrite (used_count hist Hl Hr) in Hs. split; [|lia]. destruct Hu as (v & Hv). apply used_occurs in Hv.
    destruct (used hist); [destruct Hv|cbn [length]; lia]. }
  assert (Ht' : fold_right Z.add 0 hist < 4294967296) by (change (total_count hist < 4294967296); lia).
  destruct (new_optimized_ok hist Hl Hn Ht' ltac:(lia) H1 P Ht) as (t & tb & He & Hvt & Hp & _ & Hco & _).
  exists t. split; [exact He|]. split; [|split].
  - eapply Permutation_NoDup; [symmetry; exact Hp|]. apply NoDup_filter, zrange_NoDup.
  - intros v. rewrite <- used_occurs. split; apply Permutation_in; [exact Hp|symmetry; exact Hp].
  - destruct Hvt as [Hb _ _]. eapply good_code_intro; [exact Hb|]. intros v Hv. apply Hco.
    eapply Permutation_in; [exact Hp|exact Hv].
Qed.

(** C43, for one table: up to 2^32 occurrences the outcome is a valid code for the symbols that occur, or a
    panic: never a code that misses a symbol or that a decoder rejects. *)
Theorem C43_tables : forall P hist,
  histogram hist -> total_count hist < 2 ^ 32 -> (symbol_count hist <= 255)%nat ->
  (exists t, exec (new_optimized P hist) = ([], Ok t) /\
    NoDup (h_values t) /\ (forall v, In v (h_values t) <-> occurs hist v) /\
    good_code (h_length t) (h_values t) (lookup_of P t)) \/
  exec (new_optimized P hist) = ([], Panicked PIndex).
Proof.
  intros P hist [Hl Hc Hr Hu] Ht Hs.
  assert (Hn : forall s, 0 <= nth s hist 0).
  { intros s. destruct (Nat.lt_ge_cases s (length hist)) as [H|H]; [|rewrite nth_overflow by exact H; lia].
    rewrite Forall_forall in Hc. apply (Hc (nth s hist 0)), nth_In, H. }
  assert (H1 : (1 <= length (used hist) <= 254)%nat).
  { rewrite (used_count hist Hl Hr) in Hs. split; [|lia]. destruct Hu as (v & Hv). apply used_occurs in Hv.
    destruct (used hist); [destruct Hv|cbn [length]; lia]. }
  destruct (new_optimized_cases hist Hl Hn Ht ltac:(lia) H1 P) as [(t & tb & He & Hvt & Hp & _ & Hco & _)|E].
  2:{ right. rewrite E. reflexivity. }
  left. exists t. split; [exact He|]. split; [|split].
  - eapply Permutation_NoDup; [symmetry; exact Hp|]. apply NoDup_filter, zrange_NoDup.
  - intros v. rewrite <- used_occurs. split; apply Permutation_in; [exact Hp|symmetry; exact Hp].
  - destruct Hvt as [Hb _ _]. eapply good_code_intro; [exact Hb|]. intros v Hv. apply Hco.
    eapply Permutation_in; [exact Hp|exact Hv].
Qed.

(** C44, for one table: unless codes had to be limited to 16 bits, no table that can be stored in a file, covers
    the symbols and whose longest code is not longer needs fewer bits for the code words of the whole stream; and a
    table with longer codes saves at most the difference of the longest lengths (15 bits at most).  Codes are not
    limited when there are fewer than 4,181 occurrences, or when the table made has no 16-bit code. *)
Theorem C44_optimal_tables : forall P hist t,
  histogram hist -> total_count hist < 2 ^ 32 -> (symbol_count hist <= 255)%nat ->
  exec (new_optimized P hist) = ([], Ok t) -> total_count hist < 4181 \/ nth 15 (h_length t) 0 = 0 ->
  exists tb, build_table (h_length t) (h_values t) = Some tb /\
    forall counts vals tb', alternative hist counts vals tb' -> code_bits hist tb + longest tb <= code_bits hist tb' + longest tb'.
Proof.
  intros P hist t [Hl Hc Hr Hu] Ht Hs Em Hsmall.
  assert (Hn : forall s, 0 <= nth s hist 0).
  { intros s. destruct (Nat.lt_ge_cases s (length hist)) as [H|H]; [|rewrite nth_overflow by exact H; lia].
    rewrite Forall_forall in Hc. apply (Hc (nth s hist 0)), nth_In, H. }
  assert (H1 : (1 <= length (used hist) <= 254)%nat).
  { rewrite (used_count hist Hl Hr) in Hs. split; [|lia]. destruct Hu as (v & Hv). apply used_occurs in Hv.
    destruct (used hist); [destruct Hv|cbn [length]; lia]. }
  destruct (new_optimized_cases hist Hl Hn Ht ltac:(lia) H1 P) as [(t' & tb & He & Hvt & _)|E].
  2:{ rewrite E in Em. discriminate Em. }
  unfold emits in He. rewrite Em in He. injection He as <-. destruct Hvt as [Hb _ _].
  exists tb. split; [exact Hb|]. exact (optimal P hist t tb Hl Hn Ht Hr H1 Em Hb Hsmall).
Qed.
(** The hypotheses hold of a histogram of five symbols, where the table is (1, 2, 3, 4, 4 bits) the best one ... *)
Definition five : list Z := [40; 3; 0; 9; 1; 19] ++ repeat 0 250 ++ [1].
Example C44_example : histogram five /\ total_count five = 73 /\ symbol_count five = 6%nat /\
  forall P, exists t tb, exec (new_optimized P five) = ([], Ok t) /\ build_table (h_length t) (h_values t) = Some tb /\
    map snd tb = [0; 5; 3; 1; 4] /\ code_bits five tb = 122.
Proof.
  split; [|split; [vm_compute; reflexivity|split; [vm_compute; reflexivity|]]].
  - constructor; [reflexivity| |reflexivity|exists 0; split; [lia|vm_compute; reflexivity]].
    apply Forall_forall. intros x Hx.
    assert (E : forallb (fun n => (0 <=? n) && (n <? 2 ^ 32)) five = true) by (vm_compute; reflexivity).
    rewrite forallb_forall in E. specialize (E x Hx). lia.
  - intros [[] b]; eexists; eexists; (split; [vm_compute; reflexivity|]); (split; [vm_compute; reflexivity|]); split; vm_compute; reflexivity.
Qed.
(** ... and the difference is not always 0: the reserved symbol takes part in the construction with weight 1. *)
Definition four : list Z := [2; 1; 1; 3] ++ repeat 0 252 ++ [1].
Theorem C44_not_exact : histogram four /\
  (forall P, exists t tb, exec (new_optimized P four) = ([], Ok t) /\ build_table (h_length t) (h_values t) = Some tb /\
    code_bits four tb = 15 /\ longest tb = 3) /\
  exists tb', alternative four ([1; 1; 1; 1] ++ repeat 0 12) [3; 0; 1; 2] tb' /\ code_bits four tb' = 14 /\ longest tb' = 4.
Proof.
  split; [|split].
  - constructor; [reflexivity| |reflexivity|exists 0; split; [lia|vm_compute; reflexivity]].
    apply Forall_forall. intros x Hx.
    assert (E : forallb (fun n => (0 <=? n) && (n <? 2 ^ 32)) four = true) by (vm_compute; reflexivity).
    rewrite forallb_forall in E. specialize (E x Hx). lia.
  - intros [[] b]; eexists; eexists; (split; [vm_compute; reflexivity|]); (split; [vm_compute; reflexivity|]); split; vm_compute; reflexivity.
  - eexists. split; [|split].
    + constructor; [vm_compute; reflexivity|repeat constructor; lia|]. intros v [Hv Hp].
      destruct (Z_lt_ge_dec v 4) as [H|H].
      * cbn [In]. lia.
      * unfold four in Hp. rewrite app_nth2, app_nth1, nth_repeat in Hp by (rewrite ?repeat_length; cbn [length]; lia). lia.
    + vm_compute; reflexivity.
    + vm_compute; reflexivity.
Qed.
(** The hypotheses hold of a skewed histogram with 33 symbols where the lengths must be limited to 16. *)
Fixpoint fibs (n : nat) (a b : Z) : list Z := match n with O => [] | S k => a :: fibs k b (a + b) end.
Definition skewed : list Z := rev (fibs 32 1 1) ++ repeat 0 224 ++ [1].
Example C20_example : histogram skewed /\ total_count skewed = 5702887 /\ symbol_count skewed = 33%nat.
Proof.
  split; [|split; vm_compute; reflexivity]. constructor; [reflexivity| |reflexivity|exists 0; split; [lia|vm_compute; reflexivity]].
  apply Forall_forall. intros x Hx.
  assert (E : forallb (fun n => (0 <=? n) && (n <? 2 ^ 32)) skewed = true) by (vm_compute; reflexivity).
  rewrite forallb_forall in E. specialize (E x Hx). lia.
Qed.
Example C20_example_lengths : forall P, exists t, exec (new_optimized P skewed) = ([], Ok t) /\
  h_length t = [1; 1; 1; 1; 1; 1; 1; 1; 1; 1; 1; 0; 1; 1; 0; 19].
Proof. intros [[] b]; eexists; split; vm_compute; reflexivity. Qed.

(** C21: both bounds are sharp.  A histogram with exactly 9,227,465 occurrences of 34 symbols needs a code of
    length 33 before limiting, and table generation panics on every platform ... *)
Definition too_skewed : list Z := rev (fibs 33 1 1) ++ repeat 0 223 ++ [1].
Theorem C21_too_skewed : histogram too_skewed /\ total_count too_skewed = 9227465 /\ symbol_count too_skewed = 34%nat /\
  forall P, exec (new_optimized P too_skewed) = ([], Panicked PIndex).
Proof.
  split; [|split; [vm_compute; reflexivity|split; [vm_compute; reflexivity|intros [[] b]; vm_compute; reflexivity]]].
  constructor; [reflexivity| |reflexivity|exists 0; split; [lia|vm_compute; reflexivity]].
  apply Forall_forall. intros x Hx.
  assert (E : forallb (fun n => (0 <=? n) && (n <? 2 ^ 32)) too_skewed = true) by (vm_compute; reflexivity).
  rewrite forallb_forall in E. specialize (E x Hx). lia.
Qed.
(** ... and so it does when 255 symbols and the reserved one all occur once (256 codes of length 8). *)
Definition too_many : list Z := repeat 1 255 ++ [0; 1].
Theorem C21_too_many : histogram too_many /\ total_count too_many = 256 /\ symbol_count too_many = 256%nat /\
  forall P, exists k, exec (new_optimized P too_many) = ([], Panicked k).
Proof.
  split; [|split; [vm_compute; reflexivity|split; [vm_compute; reflexivity|intros [[] b]; eexists; vm_compute; reflexivity]]].
  constructor; [reflexivity| |reflexivity|exists 0; split; [lia|vm_compute; reflexivity]].
  apply Forall_forall. intros x Hx.
  assert (E : forallb (fun n => (0 <=? n) && (n <? 2 ^ 32)) too_many = true) by (vm_compute; reflexivity).
  rewrite forallb_forall in E. specialize (E x Hx). lia.
Qed.

(** ** C02: the round trip with optimized tables *)
Lemma few_countable s color w h : few_blocks s color w h -> countable s color w h.
Proof. unfold few_blocks, countable. generalize (block_count (frame_for s color w h)). intros b H. lia. Qed.
Lemma opt_image_covered P quality calls op F T im pl : opt_config quality calls -> plat_ok P -> op_ok op F -> transform_is F T ->
  image_ok im pl -> im_width im * im_height im < 2 ^ (ubits P - 1) ->
  few_blocks (settings_of quality calls) (im_color im) (im_width im) (im_height im) ->
  covered_paths im pl F (enc_of (settings_of quality calls)) (s_luma (settings_of quality calls)) (s_chroma (settings_of quality calls)) ->
  exists bytes j,
    emits (encode_image_internal P op (enc_of (settings_of quality calls)) im) bytes tt /\ bytes_ok bytes /\
    decode bytes = Some j /\
    decoded_with T (settings_of quality calls) (im_color im) (im_width im) (im_height im) pl j.
Proof.
  intros C HP Hop HF Him Hfit Hfew Hcov. set (s := settings_of quality calls) in *.
  assert (Hs : settings_wf s) by (apply settings_of_wf; apply C).
  pose proof (oc_luma _ _ C) as H80. pose proof (oc_chroma _ _ C) as H81. fold s in H80, H81.
  pose proof H80 as H80'. pose proof H81 as H81'. rewrite table_8bit_eq in H80', H81'.
  destruct (opt_round_trip P HP im pl Him op F Hop (enc_of s) (s_luma s) (s_chroma s)
              (enc_of_ok s Hs) (oc_huffman _ _ C))
    as (bytes & j & E & Hb & Hd & H1 & H2 & H3 & H4 & H5 & H6).
  { rewrite frame_for_eq. apply (few_countable _ _ _ _ Hfew). }
  { exact Hfit. } { exact H80'. } { exact H81'. } { exact (oc_scans _ _ C). }
  { exact Hcov. }
  { rewrite frame_for_eq. exact Hfew. }
  exists bytes, j. split; [exact E|]. split; [exact Hb|]. split; [exact Hd|].
  exact (decoded_intro s Hs im pl F T HF H80 H81 j H1 H2 H3 H4 H5 H6).
Qed.
Lemma opt_image_with P quality calls op F T im pl : opt_config quality calls -> plat_ok P -> op_ok op F -> transform_is F T ->
  image_ok im pl -> im_width im * im_height im < 2 ^ (ubits P - 1) ->
  few_blocks (settings_of quality calls) (im_color im) (im_width im) (im_height im) ->
  no_restarts (settings_of quality calls) (im_color im) (im_width im) (im_height im) ->
  exists bytes j,
    emits (encode_image_internal P op (enc_of (settings_of quality calls)) im) bytes tt /\ bytes_ok bytes /\
    decode bytes = Some j /\
    decoded_with T (settings_of quality calls) (im_color im) (im_width im) (im_height im) pl j.
Proof.
  intros C HP Hop HF Him Hfit Hfew Hno. apply (opt_image_covered P quality calls op F T im pl C HP Hop HF Him Hfit Hfew).
  apply no_restart_covered; [exact Him|exact (oc_huffman _ _ C)|].
  rewrite frame_for_eq, restart_of_eq. exact Hno.
Qed.

Theorem C02_round_trip : forall P quality calls data w h c,
  opt_config quality calls -> valid_input P data w h c ->
  few_blocks (settings_of quality calls) (spec_color c) w h ->
  no_restarts (settings_of quality calls) (spec_color c) w h ->
  exists bytes j,
    exec (run_encode P quality calls data w h c) = (bytes, Ok tt) /\ Forall is_u8 bytes /\
    decode bytes = Some j /\
    decoded_as (settings_of quality calls) (spec_color c) w h (spec_plane c data w) j.
Proof.
  intros P quality calls data w h c C V Hf Hno. rewrite run_encode_eq by (apply C || assumption).
  destruct (opt_image_with P quality calls default_operations fdct_pure int_dct (image_of P data w h c) _ C
    (vi_platform _ _ _ _ _ V) default_op_ok fdct_is_int_dct (valid_image _ _ _ _ _ V)) as (b & j & H).
  { rewrite image_of_width, image_of_height. apply (valid_fits _ _ _ _ _ V). }
  { rewrite image_of_width, image_of_height, image_of_color. exact Hf. }
  { rewrite image_of_width, image_of_height, image_of_color. exact Hno. }
  exists b, j. rewrite image_of_width, image_of_height, image_of_color in H. exact H.
Qed.
Theorem C02_round_trip_image : forall P quality calls im pl,
  opt_config quality calls -> valid_buffer P im pl ->
  few_blocks (settings_of quality calls) (im_color im) (im_width im) (im_height im) ->
  no_restarts (settings_of quality calls) (im_color im) (im_width im) (im_height im) ->
  exists bytes j,
    exec (run_encode_image P quality calls im) = (bytes, Ok tt) /\ Forall is_u8 bytes /\
    decode bytes = Some j /\
    decoded_as (settings_of quality calls) (im_color im) (im_width im) (im_height im) pl j.
Proof.
  intros P quality calls im pl C V Hf Hno. rewrite run_encode_image_eq by apply C.
  exact (opt_image_with P quality calls default_operations fdct_pure int_dct im pl C (vb_platform _ _ _ V)
    default_op_ok fdct_is_int_dct (vb_image _ _ _ V) (vb_fits _ _ _ V) Hf Hno).
Qed.

(** A concrete case: progressive and optimized; and an image of 2000 x 2000 pixels is small enough. *)
Definition opt_cfg : list call := [CProgressive true; COptimize true; CSampling R_4_2_0].
Example C02_config : opt_config 60 opt_cfg /\ few_blocks (settings_of 60 opt_cfg) JYcbcr 3 2 /\
  few_blocks (settings_of 60 opt_cfg) JYcbcr 2000 2000 /\ no_restarts (settings_of 60 opt_cfg) JYcbcr 2000 2000.
Proof.
  split; [|split; [vm_compute; reflexivity|split; [vm_compute; reflexivity|left; reflexivity]]].
  constructor; cbn; try exact I; try lia; try reflexivity. repeat constructor.
Qed.
Example C02_decodes :
  match exec (run_encode debug64 60 opt_cfg ex_data 3 2 Rgb) with
  | (bytes, Ok tt) => match decode bytes with Some j => coef j 0 0 0 0 | None => None end
  | _ => None
  end = Some (-57).
Proof. vm_compute. reflexivity. Qed.

(** ** C43: with optimized tables success means a decodable file, for images of any size
    Beyond 146,467 data units a skewed image can need Huffman codes longer than the 32 bits the generator
    has room for (C21_too_skewed).  Then encode panics; it never returns [Ok] with a file that does not
    decode to the image. *)
Lemma opt_image_covered_or_panic P quality calls op F T im pl : opt_config quality calls -> plat_ok P -> op_ok op F -> transform_is F T ->
  image_ok im pl -> im_width im * im_height im < 2 ^ (ubits P - 1) ->
  countable (settings_of quality calls) (im_color im) (im_width im) (im_height im) ->
  covered_paths im pl F (enc_of (settings_of quality calls)) (s_luma (settings_of quality calls)) (s_chroma (settings_of quality calls)) ->
  (exists bytes j,
    emits (encode_image_internal P op (enc_of (settings_of quality calls)) im) bytes tt /\ bytes_ok bytes /\
    decode bytes = Some j /\
    decoded_with T (settings_of quality calls) (im_color im) (im_width im) (im_height im) pl j) \/
  exists bytes, exec (encode_image_internal P op (enc_of (settings_of quality calls)) im) = (bytes, Panicked PIndex).
Proof.
  intros C HP Hop HF Him Hfit Hfew Hcov. set (s := settings_of quality calls) in *.
  assert (Hs : settings_wf s) by (apply settings_of_wf; apply C).
  pose proof (oc_luma _ _ C) as H80. pose proof (oc_chroma _ _ C) as H81. fold s in H80, H81.
  pose proof H80 as H80'. pose proof H81 as H81'. rewrite table_8bit_eq in H80', H81'.
  destruct (opt_round_trip_or_panic P HP im pl Him op F Hop (enc_of s) (s_luma s) (s_chroma s)
              (enc_of_ok s Hs) (oc_huffman _ _ C))
    as [(bytes & j & E & Hb & Hd & H1 & H2 & H3 & H4 & H5 & H6)|E].
  { rewrite frame_for_eq. exact Hfew. }
  { exact Hfit. } { exact H80'. } { exact H81'. } { exact (oc_scans _ _ C). }
  { exact Hcov. }
  - left. exists bytes, j. split; [exact E|]. split; [exact Hb|]. split; [exact Hd|].
    exact (decoded_intro s Hs im pl F T HF H80 H81 j H1 H2 H3 H4 H5 H6).
  - right. exact E.
Qed.
Lemma opt_image_or_panic P quality calls op F T im pl : opt_config quality calls -> plat_ok P -> op_ok op F -> transform_is F T ->
  image_ok im pl -> im_width im * im_height im < 2 ^ (ubits P - 1) ->
  countable (settings_of quality calls) (im_color im) (im_width im) (im_height im) ->
  no_restarts (settings_of quality calls) (im_color im) (im_width im) (im_height im) ->
  (exists bytes j,
    emits (encode_image_internal P op (enc_of (settings_of quality calls)) im) bytes tt /\ bytes_ok bytes /\
    decode bytes = Some j /\
    decoded_with T (settings_of quality calls) (im_color im) (im_width im) (im_height im) pl j) \/
  exists bytes, exec (encode_image_internal P op (enc_of (settings_of quality calls)) im) = (bytes, Panicked PIndex).
Proof.
  intros C HP Hop HF Him Hfit Hfew Hno. apply (opt_image_covered_or_panic P quality calls op F T im pl C HP Hop HF Him Hfit Hfew).
  apply no_restart_covered; [exact Him|exact (oc_huffman _ _ C)|].
  rewrite frame_for_eq, restart_of_eq. exact Hno.
Qed.

Theorem C43_success_decodes : forall P quality calls data w h c bytes,
  opt_config quality calls -> valid_input P data w h c ->
  countable (settings_of quality calls) (spec_color c) w h ->
  no_restarts (settings_of quality calls) (spec_color c) w h ->
  exec (run_encode P quality calls data w h c) = (bytes, Ok tt) ->
  exists j, Forall is_u8 bytes /\ decode bytes = Some j /\
    decoded_as (settings_of quality calls) (spec_color c) w h (spec_plane c data w) j.
Proof.
  intros P quality calls data w h c bytes C V Hf Hno. rewrite run_encode_eq by (apply C || assumption). intros E.
  destruct (opt_image_or_panic P quality calls default_operations fdct_pure int_dct (image_of P data w h c) _ C
    (vi_platform _ _ _ _ _ V) default_op_ok fdct_is_int_dct (valid_image _ _ _ _ _ V)) as [(b & j & E' & H)|(b & E')].
  { rewrite image_of_width, image_of_height. apply (valid_fits _ _ _ _ _ V). }
  { rewrite image_of_width, image_of_height, image_of_color. exact Hf. }
  { rewrite image_of_width, image_of_height, image_of_color. exact Hno. }
  - unfold emits in E'. rewrite E in E'. injection E' as <-.
    exists j. rewrite image_of_width, image_of_height, image_of_color in H. exact H.
  - rewrite E in E'. discriminate E'.
Qed.
Theorem C43_success_or_index_panic : forall P quality calls data w h c,
  opt_config quality calls -> valid_input P data w h c ->
  countable (settings_of quality calls) (spec_color c) w h ->
  no_restarts (settings_of quality calls) (spec_color c) w h ->
  snd (exec (run_encode P quality calls data w h c)) = Ok tt \/
  snd (exec (run_encode P quality calls data w h c)) = Panicked PIndex.
Proof.
  intros P quality calls data w h c C V Hf Hno. rewrite run_encode_eq by (apply C || assumption).
  destruct (opt_image_or_panic P quality calls default_operations fdct_pure int_dct (image_of P data w h c) _ C
    (vi_platform _ _ _ _ _ V) default_op_ok fdct_is_int_dct (valid_image _ _ _ _ _ V)) as [(b & j & E' & H)|(b & E')].
  { rewrite image_of_width, image_of_height. apply (valid_fits _ _ _ _ _ V). }
  { rewrite image_of_width, image_of_height, image_of_color. exact Hf. }
  { rewrite image_of_width, image_of_height, image_of_color. exact Hno. }
  - left. unfold emits in E'. rewrite E'. reflexivity.
  - right. rewrite E'. reflexivity.
Qed.
(** The largest grey image is within the bound, as is a 4:2:0 colour image of 50,000 x 50,000 pixels. *)
Example C43_config : opt_config 60 opt_cfg /\ countable (settings_of 60 opt_cfg) JLuma 65535 65535 /\
  countable (settings_of 60 opt_cfg) JYcbcr 50000 50000 /\ no_restarts (settings_of 60 opt_cfg) JYcbcr 50000 50000.
Proof.
  split; [apply C02_config|]. split; [vm_compute; reflexivity|]. split; [vm_compute; reflexivity|left; reflexivity].
Qed.

(** ** C04, C36 with optimized tables
    The coded coefficients do not depend on the choice of the Huffman tables. *)
Theorem C04_optimized : forall P1 P2 q1 calls1 q2 calls2 data w h c,
  std_config q1 calls1 -> opt_config q2 calls2 ->
  valid_input P1 data w h c -> valid_input P2 data w h c ->
  few_blocks (settings_of q2 calls2) (spec_color c) w h ->
  no_restarts (settings_of q2 calls2) (spec_color c) w h ->
  same_coding (settings_of q1 calls1) (settings_of q2 calls2) ->
  exists b1 b2 j1 j2,
    exec (run_encode P1 q1 calls1 data w h c) = (b1, Ok tt) /\ decode b1 = Some j1 /\
    exec (run_encode P2 q2 calls2 data w h c) = (b2, Ok tt) /\ decode b2 = Some j2 /\
    fr_comps (j_frame j1) = fr_comps (j_frame j2) /\
    forall ci co, nth_error (fr_comps (j_frame j1)) ci = Some co ->
      quant j1 ci = quant j2 ci /\
      forall by_ bx k, 0 <= by_ < blocks_high (j_frame j1) co -> 0 <= bx < blocks_wide (j_frame j1) co -> 0 <= k < 64 ->
        exists v, coef j1 ci by_ bx k = Some v /\ coef j2 ci by_ bx k = Some v.
Proof.
  intros P1 P2 q1 calls1 q2 calls2 data w h c C1 C2 V1 V2 Hf Hno S.
  destruct (C01_round_trip P1 q1 calls1 data w h c C1 V1) as (b1 & j1 & E1 & _ & D1 & A1).
  destruct (C02_round_trip P2 q2 calls2 data w h c C2 V2 Hf Hno) as (b2 & j2 & E2 & _ & D2 & A2).
  exists b1, b2, j1, j2. split; [exact E1|]. split; [exact D1|]. split; [exact E2|]. split; [exact D2|].
  exact (decoded_same _ _ _ _ _ _ _ _ _ S A1 A2).
Qed.
Theorem C36_no_panic_optimized : forall P quality calls data w h c,
  opt_config quality calls -> valid_input P data w h c ->
  few_blocks (settings_of quality calls) (spec_color c) w h ->
  no_restarts (settings_of quality calls) (spec_color c) w h ->
  snd (exec (run_encode P quality calls data w h c)) = Ok tt.
Proof.
  intros P quality calls data w h c C V Hf Hno. destruct (C02_round_trip P quality calls data w h c C V Hf Hno) as (b & j & -> & _).
  reflexivity.
Qed.

(** ** C03: optimized tables together with restarts
    Where no scan has a restart the round trip holds (C02_round_trip, hypothesis [no_restarts]).  Otherwise
    it does not: the statistics miss the DC differences after a restart.  A 16 x 8 grey image with restart
    interval 1: a build with debug assertions panics ... *)
Definition bad_data : list Z := concat (repeat (repeat 160 8 ++ repeat 180 8) 8).
Definition bad_cfg : list call := [COptimize true; CRestart 1].
Example bad_valid : forall P, plat_ok P -> valid_input P bad_data 16 8 Luma.
Proof.
  intros P HP. constructor; try (vm_compute; split; discriminate); [exact HP| |vm_compute; discriminate|].
  - apply Forall_forall. intros x Hx. assert (E : forallb (fun n => (0 <=? n) && (n <? 256)) bad_data = true) by (vm_compute; reflexivity).
    rewrite forallb_forall in E. specialize (E x Hx). unfold is_u8. lia.
  - destruct HP as [-> | ->]; vm_compute; reflexivity.
Qed.
Example bad_config : opt_config 90 bad_cfg /\ few_blocks (settings_of 90 bad_cfg) JLuma 16 8.
Proof.
  split; [|vm_compute; reflexivity].
  constructor; cbn; try exact I; try lia; try reflexivity. repeat constructor; unfold is_u16; lia.
Qed.
Theorem C03_debug_panics : forall P, plat_ok P -> dbg P = true ->
  snd (exec (run_encode P 90 bad_cfg bad_data 16 8 Luma)) = Panicked PDebugAssert.
Proof. intros [d u] [E|E] Hd; cbn in E, Hd; subst; vm_compute; reflexivity. Qed.
(** ... and a release build reports success but writes a file that cannot be decoded ... *)
Theorem C03_release_undecodable : forall P, plat_ok P -> dbg P = false ->
  exists bytes, exec (run_encode P 90 bad_cfg bad_data 16 8 Luma) = (bytes, Ok tt) /\ decode bytes = None.
Proof. intros [d u] [E|E] Hd; cbn in E, Hd; subst; eexists; (split; [vm_compute; reflexivity|vm_compute; reflexivity]). Qed.
(** ... whereas each of the two options alone is fine. *)
Theorem C03_alone : forall P, plat_ok P -> forall cfg, cfg = [CRestart 1] \/ cfg = [COptimize true] ->
  exists bytes j, exec (run_encode P 90 cfg bad_data 16 8 Luma) = (bytes, Ok tt) /\ decode bytes = Some j /\
    coef j 0 0 0 0 = Some 85 /\ coef j 0 0 1 0 = Some 139.
Proof.
  intros [d u] HP cfg [-> | ->]; destruct HP as [E|E]; cbn in E; subst; destruct d;
    (eexists; eexists; split; [vm_compute; reflexivity|split; [vm_compute; reflexivity|split; vm_compute; reflexivity]]).
Qed.
