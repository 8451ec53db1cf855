(** Builds with and without overflow checks and debug assertions: as long as the checked build does
    not panic, the unchecked build performs the same writes with the same results. *)
From Verif Require Export MApi PExec.

(** [rf m1 m2]: [m2] does what [m1] does until [m1] panics (if it does). *)
Inductive rf {A} : prog A -> prog A -> Prop :=
| rf_panic r m : rf (Panic r) m
| rf_ret a : rf (Ret a) (Ret a)
| rf_throw e : rf (Throw e) (Throw e)
| rf_write bs k1 k2 : (forall r, rf (k1 r) (k2 r)) -> rf (WriteAll bs k1) (WriteAll bs k2).

Lemma rf_refl {A} (m : prog A) : rf m m.
Proof. induction m; constructor; auto. Qed.
Lemma rf_bind {A B} (m1 m2 : prog A) (f1 f2 : A -> prog B) :
  rf m1 m2 -> (forall a, rf (f1 a) (f2 a)) -> rf (bind m1 f1) (bind m2 f2).
Proof. intros Hm Hf. induction Hm; cbn [bind]; [constructor|apply Hf|constructor|constructor; auto]. Qed.
Lemma rf_foldM {A X} (f1 f2 : A -> X -> prog A) l : (forall a x, rf (f1 a x) (f2 a x)) ->
  forall a, rf (foldM f1 l a) (foldM f2 l a).
Proof. intros Hf. induction l as [|x l IH]; intros a; cbn [foldM]; [constructor|]. apply rf_bind; auto. Qed.
Lemma rf_mapM {A X} (f1 f2 : X -> prog A) l : (forall x, rf (f1 x) (f2 x)) -> rf (mapM f1 l) (mapM f2 l).
Proof.
  intros Hf. induction l as [|x l IH]; cbn [mapM]; [constructor|].
  apply rf_bind; [apply Hf|]. intros y. apply rf_bind; [exact IH|]. intros; constructor.
Qed.

Lemma rf_run {A} (m1 m2 : prog A) : rf m1 m2 -> forall S (w : S -> list Z -> S * option error) s s' r,
  run w m1 s = (s', r) -> (forall p, r <> Panicked p) -> run w m2 s = (s', r).
Proof.
  intros Hm S w. induction Hm as [p m|a|e|bs k1 k2 Hk IH]; intros s s' r Hr Hp; cbn [run] in *; try exact Hr.
  - inversion Hr; subst. now destruct (Hp p).
  - destruct (w s bs) as [s1 x]. now apply (IH x).
Qed.
Lemma rf_exec {A} (m1 m2 : prog A) : rf m1 m2 -> forall o r,
  exec m1 = (o, r) -> (forall p, r <> Panicked p) -> exec m2 = (o, r).
Proof.
  intros Hm. induction Hm as [p m|a|e|bs k1 k2 Hk IH]; intros o r Hr Hp; cbn [exec] in *; try exact Hr.
  - inversion Hr; subst. now destruct (Hp p).
  - destruct (exec (k1 None)) as [o1 r1] eqn:E. inversion Hr; subst.
    rewrite (IH None o1 r E Hp). reflexivity.
Qed.

Create HintDb rf discriminated.
Global Hint Constants Opaque : rf.
Ltac rf_step :=
  match goal with
  | |- forall _, _ => intro
  | |- rf ?x ?x => apply rf_refl
  | |- rf (bind _ _) (bind _ _) => apply rf_bind
  | |- rf (foldM _ _ _) (foldM _ _ _) => apply rf_foldM
  | |- rf (mapM _ _) (mapM _ _) => apply rf_mapM
  | |- rf (ck_usize _ _) _ => unfold ck_usize; cbn [ubits]
  | |- rf _ _ => solve [auto with rf]
  | |- rf (let '(_, _) := ?x in _) _ => destruct x
  | |- rf (match ?x with _ => _ end) _ => destruct x
  | |- rf ((match ?x with _ => _ end) _) _ => destruct x
  end.
Ltac rf_all := repeat (cbv zeta; rf_step).

Section Refine.
  Variable u : Z.
  Notation D := {| dbg := true; ubits := u |}.
  Notation R := {| dbg := false; ubits := u |}.

  Lemma rf_ck_u n z : rf (ck_u D n z) (ck_u R n z).
  Proof. unfold ck_u. cbn [dbg]. destruct (_ && _); constructor. Qed.
  Lemma rf_ck_s n z : rf (ck_s D n z) (ck_s R n z).
  Proof. unfold ck_s. cbn [dbg]. destruct (_ && _); constructor. Qed.
  Lemma rf_shl n x s : rf (shl_u D n x s) (shl_u R n x s).
  Proof. unfold shl_u. cbn [dbg]. destruct (_ && _); constructor. Qed.
  Lemma rf_shr n x s : rf (shr_u D n x s) (shr_u R n x s).
  Proof. unfold shr_u. cbn [dbg]. destruct (_ && _); constructor. Qed.
  Lemma rf_debug_assert b : rf (debug_assert D b) (debug_assert R b).
  Proof. unfold debug_assert. cbn [dbg negb]. rewrite orb_true_r, orb_false_r. destruct b; constructor. Qed.
  Hint Resolve rf_ck_u rf_ck_s rf_shl rf_shr rf_debug_assert : rf.

  Lemma rf_flush_byte b f : rf (flush_byte D b f) (flush_byte R b f).
  Proof. unfold flush_byte, BUFFER_SIZE. cbn [ubits]. rf_all. Qed.
  Hint Resolve rf_flush_byte : rf.
  Lemma rf_write_bit_buffer b : rf (write_bit_buffer D b) (write_bit_buffer R b).
  Proof. unfold write_bit_buffer, BUFFER_SIZE, mask80, mask01. cbn [ubits]. rf_all. Qed.
  Hint Resolve rf_write_bit_buffer : rf.
  Lemma rf_write_bits w v s : rf (write_bits D w v s) (write_bits R w v s).
  Proof. unfold write_bits, BUFFER_SIZE. cbn [ubits]. rf_all. Qed.
  Hint Resolve rf_write_bits : rf.
  Lemma rf_flush_bit_buffer n : forall w, rf (flush_bit_buffer D n w) (flush_bit_buffer R n w).
  Proof. induction n; intros w; cbn [flush_bit_buffer]; unfold BUFFER_SIZE; cbn [ubits]; rf_all. Qed.
  Hint Resolve rf_flush_bit_buffer : rf.
  Lemma rf_finalize w : rf (finalize_bit_buffer D w) (finalize_bit_buffer R w).
  Proof. unfold finalize_bit_buffer, BUFFER_SIZE. cbn [ubits]. rf_all. Qed.
  Hint Resolve rf_finalize : rf.
  Lemma rf_segment m d : rf (write_segment D m d) (write_segment R m d). Proof. unfold write_segment. rf_all. Qed.
  Lemma rf_huffman_segment c d t : rf (write_huffman_segment D c d t) (write_huffman_segment R c d t).
  Proof. unfold write_huffman_segment. rf_all. Qed.
  Lemma rf_get_for_value t v : rf (get_for_value D t v) (get_for_value R t v). Proof. unfold get_for_value. rf_all. Qed.
  Lemma rf_get_code v : rf (get_code D v) (get_code R v). Proof. unfold get_code. rf_all. Qed.
  Hint Resolve rf_segment rf_huffman_segment rf_get_for_value rf_get_code : rf.
  Lemma rf_huffman_encode w v t : rf (huffman_encode D w v t) (huffman_encode R w v t).
  Proof. unfold huffman_encode. rf_all. Qed.
  Lemma rf_huffman_encode_value w s y v t : rf (huffman_encode_value D w s y v t) (huffman_encode_value R w s y v t).
  Proof. unfold huffman_encode_value. rf_all. Qed.
  Hint Resolve rf_huffman_encode rf_huffman_encode_value : rf.
  Lemma rf_write_dc w v p t : rf (write_dc D w v p t) (write_dc R w v p t). Proof. unfold write_dc. rf_all. Qed.
  Lemma rf_zrl n : forall w z t, rf (write_zrl D n w z t) (write_zrl R n w z t).
  Proof. induction n; intros; cbn [write_zrl]; rf_all. Qed.
  Hint Resolve rf_write_dc rf_zrl : rf.
  Lemma rf_ac_loop t : forall vals w z, rf (write_ac_loop D w vals z t) (write_ac_loop R w vals z t).
  Proof. induction vals; intros; cbn [write_ac_loop]; rf_all. Qed.
  Hint Resolve rf_ac_loop : rf.
  Lemma rf_ac_block w b s e t : rf (write_ac_block D w b s e t) (write_ac_block R w b s e t).
  Proof. unfold write_ac_block. rf_all. Qed.
  Hint Resolve rf_ac_block : rf.
  Lemma rf_block w b p d a : rf (write_block D w b p d a) (write_block R w b p d a).
  Proof. unfold write_block. rf_all. Qed.
  Hint Resolve rf_block : rf.

  Lemma rf_codes_loop : forall sizes c s, rf (create_codes_loop D sizes c s) (create_codes_loop R sizes c s).
  Proof. induction sizes; intros; cbn [create_codes_loop]; rf_all. Qed.
  Hint Resolve rf_codes_loop : rf.
  Lemma rf_create_codes s : rf (create_codes D s) (create_codes R s). Proof. unfold create_codes. rf_all. Qed.
  Hint Resolve rf_create_codes : rf.
  Lemma rf_lookup l v : rf (create_lookup_table D l v) (create_lookup_table R l v).
  Proof. unfold create_lookup_table. rf_all. Qed.
  Hint Resolve rf_lookup : rf.
  Lemma rf_huffman_new l v : rf (huffman_new D l v) (huffman_new R l v). Proof. unfold huffman_new. rf_all. Qed.
  Hint Resolve rf_huffman_new : rf.
  Lemma rf_code_sizes n : forall f o c, rf (code_sizes_loop D n f o c) (code_sizes_loop R n f o c).
  Proof. induction n; intros; cbn [code_sizes_loop]; rf_all. Qed.
  Lemma rf_count_sizes c : rf (count_sizes D c) (count_sizes R c). Proof. unfold count_sizes. rf_all. Qed.
  Lemma rf_find_shorter b j : rf (find_shorter D b j) (find_shorter R b j).
  Proof. induction j; cbn [find_shorter]; cbn [dbg]; destruct (_ =? _); try apply rf_panic; rf_all. Qed.
  Hint Resolve rf_code_sizes rf_count_sizes rf_find_shorter : rf.
  Lemma rf_shorten n i : forall b, rf (shorten_level D n i b) (shorten_level R n i b).
  Proof. induction n; intros; cbn [shorten_level]; rf_all. Qed.
  Hint Resolve rf_shorten : rf.
  Lemma rf_limit b : rf (limit_lengths D b) (limit_lengths R b). Proof. unfold limit_lengths. rf_all. Qed.
  Lemma rf_drop b i : rf (drop_reserved D b i) (drop_reserved R b i).
  Proof. induction i; cbn [drop_reserved]; cbn [dbg]; destruct (_ =? _); try apply rf_panic; rf_all. Qed.
  Hint Resolve rf_limit rf_drop : rf.
  Lemma rf_new_optimized f : rf (new_optimized D f) (new_optimized R f). Proof. unfold new_optimized. rf_all. Qed.
  Hint Resolve rf_new_optimized : rf.

  Lemma rf_quantize q v i : rf (quantize D q v i) (quantize R q v i). Proof. unfold quantize. rf_all. Qed.
  Hint Resolve rf_quantize : rf.
  Lemma rf_quantize_block b q : rf (quantize_block D b q) (quantize_block R b q). Proof. unfold quantize_block. rf_all. Qed.
  Lemma rf_restart_after a b c : rf (restart_after D a b c) (restart_after R a b c). Proof. unfold restart_after. rf_all. Qed.
  Hint Resolve rf_quantize_block rf_restart_after : rf.
  Lemma rf_add32 a b : rf (add32 D a b) (add32 R a b). Proof. apply rf_ck_s. Qed.
  Lemma rf_sub32 a b : rf (sub32 D a b) (sub32 R a b). Proof. apply rf_ck_s. Qed.
  Lemma rf_mul32 a b : rf (mul32 D a b) (mul32 R a b). Proof. apply rf_ck_s. Qed.
  Hint Resolve rf_add32 rf_sub32 rf_mul32 : rf.
  Lemma rf_descale x n : rf (descale D x n) (descale R x n). Proof. unfold descale. rf_all. Qed.
  Hint Resolve rf_descale : rf.
  Lemma rf_fdct_row a b c d e f g h : rf (fdct_row D a b c d e f g h) (fdct_row R a b c d e f g h).
  Proof. unfold fdct_row. rf_all. Qed.
  Lemma rf_fdct_col a b c d e f g h : rf (fdct_col D a b c d e f g h) (fdct_col R a b c d e f g h).
  Proof. unfold fdct_col. rf_all. Qed.
  Hint Resolve rf_fdct_row rf_fdct_col : rf.
  Lemma rf_fdct b : rf (fdct D b) (fdct R b). Proof. unfold fdct. rf_all. Qed.

  Lemma rf_get_num_bits v : rf (get_num_bits D v) (get_num_bits R v). Proof. unfold get_num_bits. rf_all. Qed.
  Lemma rf_inc_freq f i : rf (inc_freq D f i) (inc_freq R f i). Proof. unfold inc_freq. rf_all. Qed.
  Hint Resolve rf_get_num_bits rf_inc_freq : rf.
  Lemma rf_count_dc : forall bs p f, rf (count_dc D bs p f) (count_dc R bs p f).
  Proof. induction bs; intros; cbn [count_dc]; rf_all. Qed.
  Lemma rf_count_zrl n : forall z f, rf (count_zrl D n z f) (count_zrl R n z f).
  Proof. induction n; intros; cbn [count_zrl]; rf_all. Qed.
  Hint Resolve rf_count_dc rf_count_zrl : rf.
  Lemma rf_count_ac_loop : forall vs z f, rf (count_ac_loop D vs z f) (count_ac_loop R vs z f).
  Proof. induction vs; intros; cbn [count_ac_loop]; rf_all. Qed.
  Hint Resolve rf_count_ac_loop : rf.
  Lemma rf_count_ac b s e f : rf (count_ac D b s e f) (count_ac R b s e f). Proof. unfold count_ac. rf_all. Qed.
  Lemma rf_opt_bands s : rf (opt_bands D s) (opt_bands R s). Proof. unfold opt_bands. rf_all. Qed.
  Lemma rf_prog_bands s : rf (prog_bands D s) (prog_bands R s). Proof. unfold prog_bands. rf_all. Qed.
  Hint Resolve rf_count_ac rf_opt_bands rf_prog_bands : rf.
  Lemma rf_optimize_table e cs bs t : rf (optimize_table D e cs bs t) (optimize_table R e cs bs t).
  Proof. unfold optimize_table. rf_all. Qed.
  Hint Resolve rf_optimize_table : rf.
  Lemma rf_tables_for e cs bs : rf (tables_for D e cs bs) (tables_for R e cs bs).
  Proof. unfold tables_for, optimize_huffman_table. rf_all. Qed.
  Lemma rf_sequential_scan ri bs dc ac w : rf (sequential_scan D ri bs dc ac w) (sequential_scan R ri bs dc ac w).
  Proof. unfold sequential_scan. rf_all. Qed.
  Lemma rf_dc_scan ri bs dc w : rf (dc_scan D ri bs dc w) (dc_scan R ri bs dc w). Proof. unfold dc_scan. rf_all. Qed.
  Lemma rf_ac_scan ri bs s e ac w : rf (ac_scan D ri bs s e ac w) (ac_scan R ri bs s e ac w).
  Proof. unfold ac_scan. rf_all. Qed.
  Hint Resolve rf_tables_for rf_sequential_scan rf_dc_scan rf_ac_scan : rf.

  (** The transform and the image buffer may also depend on the build. *)
  Record im_rf (im1 im2 : image) : Prop := {
    ir_color : im_color im1 = im_color im2;
    ir_width : im_width im1 = im_width im2;
    ir_height : im_height im1 = im_height im2;
    ir_fill : forall y bs, rf (im_fill im1 y bs) (im_fill im2 y bs)
  }.
  Lemma im_rf_refl im : im_rf im im.
  Proof. constructor; intros; try reflexivity. apply rf_refl. Qed.

  Section Enc.
    Variable op : operations.
    Variable Hop : forall b, rf (op_fdct op D b) (op_fdct op R b).
    Variables im1 im2 : image.
    Variable Him : im_rf im1 im2.
    Hint Resolve Hop : rf.
    Let Hfill := ir_fill _ _ Him.
    Hint Resolve Hfill : rf.
    Ltac dims := rewrite ?(ir_color _ _ Him), ?(ir_width _ _ Him), ?(ir_height _ _ Him).

    Lemma rf_enc_frame e cs ht q0 q1 :
      rf (enc_write_frame_header D e cs ht im1 q0 q1) (enc_write_frame_header R e cs ht im2 q0 q1).
    Proof. unfold enc_write_frame_header. dims. rf_all. Qed.
    Lemma rf_make_block r a b c d w q : rf (make_block D op r a b c d w q) (make_block R op r a b c d w q).
    Proof. unfold make_block. rf_all. Qed.
    Lemma rf_fill_rows bw ys row : rf (fill_rows im1 bw ys row) (fill_rows im2 bw ys row).
    Proof. unfold fill_rows. dims. rf_all. Qed.
    Hint Resolve rf_enc_frame rf_make_block rf_fill_rows : rf.
    Lemma rf_mcu cs ht qs mh mv bw row bx st :
      rf (write_mcu D op cs ht qs mh mv bw row bx st) (write_mcu R op cs ht qs mh mv bw row bx st).
    Proof. unfold write_mcu. rf_all. Qed.
    Hint Resolve rf_mcu : rf.
    Lemma rf_interleaved e cs q0 q1 w :
      rf (encode_image_interleaved D op e cs im1 q0 q1 w) (encode_image_interleaved R op e cs im2 q0 q1 w).
    Proof. unfold encode_image_interleaved. dims. rf_all. Qed.
    Lemma rf_encode_blocks cs q0 q1 : rf (encode_blocks D op cs im1 q0 q1) (encode_blocks R op cs im2 q0 q1).
    Proof. unfold encode_blocks. dims. rf_all. Qed.
    Hint Resolve rf_encode_blocks : rf.
    Lemma rf_sequential e cs q0 q1 w :
      rf (encode_image_sequential D op e cs im1 q0 q1 w) (encode_image_sequential R op e cs im2 q0 q1 w).
    Proof. unfold encode_image_sequential. rf_all. Qed.
    Lemma rf_progressive e s cs q0 q1 w :
      rf (encode_image_progressive D op e s cs im1 q0 q1 w) (encode_image_progressive R op e s cs im2 q0 q1 w).
    Proof. unfold encode_image_progressive. rf_all. Qed.
    Hint Resolve rf_interleaved rf_sequential rf_progressive : rf.
    Lemma rf_internal e : rf (encode_image_internal D op e im1) (encode_image_internal R op e im2).
    Proof.
      unfold encode_image_internal, bitw_new, BUFFER_SIZE. cbn [ubits]. dims. rf_all.
    Qed.
  End Enc.

  Lemma rf_get_line d y w n : rf (get_line D d y w n) (get_line R d y w n). Proof. unfold get_line. rf_all. Qed.
  Hint Resolve rf_get_line : rf.
  Lemma rf_image_of data w h c : im_rf (image_of D data w h c) (image_of R data w h c).
  Proof. destruct c; constructor; cbn; try reflexivity; intros; rf_all. Qed.

  Lemma rf_icc_loop cs n : forall e, rf (add_icc_loop D cs n e) (add_icc_loop R cs n e).
  Proof.
    induction cs as [|[i d] cs IH]; intros e; cbn [add_icc_loop]; [constructor|].
    apply rf_bind; [apply rf_ck_u|]. intros nr. destruct (add_app_segment _ _ _) as [e' [err|]]; [constructor|apply IH].
  Qed.
  Hint Resolve rf_icc_loop : rf.
  Lemma rf_do_call c e : rf (do_call D c e) (do_call R c e).
  Proof. destruct c; cbn [do_call]; unfold add_icc_profile; rf_all. Qed.
  Hint Resolve rf_do_call : rf.
  Lemma rf_do_calls : forall cs e, rf (do_calls D cs e) (do_calls R cs e).
  Proof. induction cs; intros e; cbn [do_calls]; rf_all. Qed.
  Hint Resolve rf_do_calls : rf.
  Lemma rf_build q cs : rf (build D q cs) (build R q cs).
  Proof. unfold build, encoder_new, default_luma_dc, default_luma_ac, default_chroma_dc, default_chroma_ac. rf_all. Qed.
  Hint Resolve rf_build : rf.

  Lemma rf_run_encode_image q cs im : rf (run_encode_image D q cs im) (run_encode_image R q cs im).
  Proof.
    unfold run_encode_image, encode_image. apply rf_bind; [apply rf_build|]. intros [e r].
    apply rf_internal; [apply rf_fdct|apply im_rf_refl].
  Qed.
  Lemma rf_run_encode q cs data w h c : rf (run_encode D q cs data w h c) (run_encode R q cs data w h c).
  Proof.
    unfold run_encode, encode, encode_image. apply rf_bind; [apply rf_build|]. intros [e r].
    apply rf_bind; [apply rf_ck_u|]. intros a. apply rf_bind; [apply rf_ck_u|]. intros b.
    destruct (_ <? _); [constructor|]. apply rf_internal; [apply rf_fdct|apply rf_image_of].
  Qed.
End Refine.
