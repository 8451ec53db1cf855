(** Programs that only fail because the sink fails: every write error is returned at once. *)
From Verif Require Export MApi PExec.

Inductive wr {A} : prog A -> Prop :=
| wr_ret a : wr (Ret a)
| wr_panic r : wr (Panic r)
| wr_write bs k : (forall e, k (Some e) = Throw e) -> wr (k None) -> wr (WriteAll bs k).

Lemma wr_bind {A B} (m : prog A) (f : A -> prog B) : wr m -> (forall a, wr (f a)) -> wr (bind m f).
Proof.
  intros Hm Hf. induction Hm as [a|r|bs k Hk Hn IH]; cbn [bind]; [apply Hf|constructor|].
  constructor; [intros e; now rewrite Hk|exact IH].
Qed.
Lemma wr_write_all bs : wr (write_all bs).
Proof. constructor; [reflexivity|constructor]. Qed.
Lemma wr_foldM {A X} (f : A -> X -> prog A) l : (forall a x, wr (f a x)) -> forall a, wr (foldM f l a).
Proof. intros Hf. induction l as [|x l IH]; intros a; cbn [foldM]; [constructor|]. apply wr_bind; auto. Qed.
Lemma wr_mapM {A X} (f : X -> prog A) l : (forall x, wr (f x)) -> wr (mapM f l).
Proof.
  intros Hf. induction l as [|x l IH]; cbn [mapM]; [constructor|].
  apply wr_bind; [apply Hf|]. intros y. apply wr_bind; [exact IH|]. intros; constructor.
Qed.
Lemma wr_ck_u P n z : wr (ck_u P n z). Proof. unfold ck_u. destruct (_ && _); [constructor|]. destruct (dbg P); constructor. Qed.
Lemma wr_ck_s P n z : wr (ck_s P n z). Proof. unfold ck_s. destruct (_ && _); [constructor|]. destruct (dbg P); constructor. Qed.
Lemma wr_shl P n x s : wr (shl_u P n x s). Proof. unfold shl_u. destruct (_ && _); [constructor|]. destruct (dbg P); constructor. Qed.
Lemma wr_shr P n x s : wr (shr_u P n x s). Proof. unfold shr_u. destruct (_ && _); [constructor|]. destruct (dbg P); constructor. Qed.
Lemma wr_assert b : wr (assert_ b). Proof. unfold assert_; destruct b; constructor. Qed.
Lemma wr_debug_assert P b : wr (debug_assert P b). Proof. unfold debug_assert; destruct (_ || _); constructor. Qed.
Lemma wr_index {A} (l : list A) i : wr (index l i).
Proof. unfold index. destruct (0 <=? i); [|constructor]. destruct (nth_error _ _); constructor. Qed.

Create HintDb wr discriminated.
Global Hint Constants Opaque : wr.
Global Hint Resolve wr_write_all wr_ck_u wr_ck_s wr_shl wr_shr wr_assert wr_debug_assert wr_index : wr.
Ltac wr_step :=
  match goal with
  | |- forall _, _ => intro
  | |- wr (Ret _) => constructor
  | |- wr (Panic _) => constructor
  | |- wr (bind _ _) => apply wr_bind
  | |- wr (foldM _ _ _) => apply wr_foldM
  | |- wr (mapM _ _) => apply wr_mapM
  | |- wr (ck_usize _ _) => unfold ck_usize
  | |- wr (write_u8 _) => unfold write_u8
  | |- wr (write_u16 _) => unfold write_u16
  | |- wr (write _) => unfold write
  | |- wr (let '(_, _) := ?x in _) => destruct x
  | |- wr (match ?x with _ => _ end) => destruct x
  | |- wr ((match ?x with _ => _ end) _) => destruct x
  | |- wr _ => solve [auto with wr]
  end.
Ltac wr_all := repeat (cbv zeta; wr_step).

Lemma wr_flush_byte P b f : wr (flush_byte P b f). Proof. unfold flush_byte. wr_all. Qed.
Global Hint Resolve wr_flush_byte : wr.
Lemma wr_write_bit_buffer P b : wr (write_bit_buffer P b). Proof. unfold write_bit_buffer. wr_all. Qed.
Global Hint Resolve wr_write_bit_buffer : wr.
Lemma wr_write_bits P w v s : wr (write_bits P w v s). Proof. unfold write_bits. wr_all. Qed.
Global Hint Resolve wr_write_bits : wr.
Lemma wr_flush_bit_buffer P n : forall w, wr (flush_bit_buffer P n w).
Proof. induction n; intros w; cbn [flush_bit_buffer]; wr_all. Qed.
Global Hint Resolve wr_flush_bit_buffer : wr.
Lemma wr_finalize P w : wr (finalize_bit_buffer P w). Proof. unfold finalize_bit_buffer. wr_all. Qed.
Lemma wr_marker m : wr (write_marker m). Proof. unfold write_marker. wr_all. Qed.
Global Hint Resolve wr_finalize wr_marker : wr.
Lemma wr_segment P m d : wr (write_segment P m d). Proof. unfold write_segment. wr_all. Qed.
Lemma wr_header d : wr (write_header d). Proof. unfold write_header. wr_all. Qed.
Lemma wr_huffman_segment P c d t : wr (write_huffman_segment P c d t). Proof. unfold write_huffman_segment. wr_all. Qed.
Lemma wr_quant_segment d q : wr (write_quantization_segment d q). Proof. unfold write_quantization_segment. wr_all. Qed.
Lemma wr_dri r : wr (write_dri r). Proof. unfold write_dri. wr_all. Qed.
Lemma wr_frame w h cs p : wr (write_frame_header w h cs p). Proof. unfold write_frame_header. wr_all. Qed.
Lemma wr_scan_header cs p : wr (write_scan_header cs p). Proof. unfold write_scan_header. wr_all. Qed.
Lemma wr_get_for_value P t v : wr (get_for_value P t v). Proof. unfold get_for_value. wr_all. Qed.
Lemma wr_get_code P v : wr (get_code P v). Proof. unfold get_code. wr_all. Qed.
Global Hint Resolve wr_segment wr_header wr_huffman_segment wr_quant_segment wr_dri wr_frame wr_scan_header wr_get_for_value wr_get_code : wr.
Lemma wr_huffman_encode P w v t : wr (huffman_encode P w v t). Proof. unfold huffman_encode. wr_all. Qed.
Lemma wr_huffman_encode_value P w s y v t : wr (huffman_encode_value P w s y v t). Proof. unfold huffman_encode_value. wr_all. Qed.
Global Hint Resolve wr_huffman_encode wr_huffman_encode_value : wr.
Lemma wr_write_dc P w v p t : wr (write_dc P w v p t). Proof. unfold write_dc. wr_all. Qed.
Lemma wr_zrl P n : forall w z t, wr (write_zrl P n w z t).
Proof. induction n; intros; cbn [write_zrl]; wr_all. Qed.
Global Hint Resolve wr_write_dc wr_zrl : wr.
Lemma wr_ac_loop P t : forall vals w z, wr (write_ac_loop P w vals z t).
Proof. induction vals; intros; cbn [write_ac_loop]; wr_all. Qed.
Global Hint Resolve wr_ac_loop : wr.
Lemma wr_ac_block P w b s e t : wr (write_ac_block P w b s e t). Proof. unfold write_ac_block. wr_all. Qed.
Global Hint Resolve wr_ac_block : wr.
Lemma wr_block P w b p d a : wr (write_block P w b p d a). Proof. unfold write_block. wr_all. Qed.
Global Hint Resolve wr_block : wr.

Lemma wr_create_sizes cl : wr (create_sizes cl). Proof. unfold create_sizes. wr_all. Qed.
Lemma wr_codes_loop P : forall sizes c s, wr (create_codes_loop P sizes c s).
Proof. induction sizes; intros; cbn [create_codes_loop]; wr_all. Qed.
Global Hint Resolve wr_create_sizes wr_codes_loop : wr.
Lemma wr_create_codes P s : wr (create_codes P s). Proof. unfold create_codes. wr_all. Qed.
Global Hint Resolve wr_create_codes : wr.
Lemma wr_lookup P l v : wr (create_lookup_table P l v). Proof. unfold create_lookup_table. wr_all. Qed.
Global Hint Resolve wr_lookup : wr.
Lemma wr_bump n : forall o c v, wr (bump_chain n o c v).
Proof. induction n; intros; cbn [bump_chain]; wr_all. Qed.
Global Hint Resolve wr_bump : wr.
Lemma wr_code_sizes P n : forall f o c, wr (code_sizes_loop P n f o c).
Proof. induction n; intros; cbn [code_sizes_loop]; wr_all. Qed.
Lemma wr_count_sizes P c : wr (count_sizes P c). Proof. unfold count_sizes. wr_all. Qed.
Lemma wr_find_shorter P b j : wr (find_shorter P b j).
Proof. induction j; cbn [find_shorter]; wr_all. Qed.
Global Hint Resolve wr_code_sizes wr_count_sizes wr_find_shorter : wr.
Lemma wr_shorten P n i : forall b, wr (shorten_level P n i b).
Proof. induction n; intros; cbn [shorten_level]; wr_all. Qed.
Global Hint Resolve wr_shorten : wr.
Lemma wr_limit P b : wr (limit_lengths P b). Proof. unfold limit_lengths. wr_all. Qed.
Lemma wr_drop P b i : wr (drop_reserved P b i). Proof. induction i; cbn [drop_reserved]; wr_all. Qed.
Global Hint Resolve wr_limit wr_drop : wr.
Lemma wr_new_optimized P f : wr (new_optimized P f). Proof. unfold new_optimized. wr_all. Qed.
Global Hint Resolve wr_new_optimized : wr.

Lemma wr_new_with_quality t q l : wr (new_with_quality t q l).
Proof. unfold new_with_quality, get_user_table, get_with_quality, qtype_index, nonzero. wr_all. Qed.
Lemma wr_quantize P q v i : wr (quantize P q v i). Proof. unfold quantize. wr_all. Qed.
Global Hint Resolve wr_new_with_quality wr_quantize : wr.
Lemma wr_quantize_block P b q : wr (quantize_block P b q). Proof. unfold quantize_block. wr_all. Qed.
Lemma wr_get_block d a b c e w : wr (get_block d a b c e w). Proof. unfold get_block. wr_all. Qed.
Lemma wr_init_rows cs : wr (init_rows cs). Proof. unfold init_rows. wr_all. Qed.
Lemma wr_dc_table ht c : wr (dc_table ht c). Proof. unfold dc_table. wr_all. Qed.
Lemma wr_ac_table ht c : wr (ac_table ht c). Proof. unfold ac_table. wr_all. Qed.
Lemma wr_restart_after P a b c : wr (restart_after P a b c). Proof. unfold restart_after. wr_all. Qed.
Global Hint Resolve wr_quantize_block wr_get_block wr_init_rows wr_dc_table wr_ac_table wr_restart_after : wr.
Lemma wr_add32 P a b : wr (add32 P a b). Proof. apply wr_ck_s. Qed.
Lemma wr_sub32 P a b : wr (sub32 P a b). Proof. apply wr_ck_s. Qed.
Lemma wr_mul32 P a b : wr (mul32 P a b). Proof. apply wr_ck_s. Qed.
Global Hint Resolve wr_add32 wr_sub32 wr_mul32 : wr.
Lemma wr_descale P x n : wr (descale P x n). Proof. unfold descale. wr_all. Qed.
Global Hint Resolve wr_descale : wr.
Lemma wr_fdct_row P a b c d e f g h : wr (fdct_row P a b c d e f g h). Proof. unfold fdct_row. wr_all. Qed.
Lemma wr_fdct_col P a b c d e f g h : wr (fdct_col P a b c d e f g h). Proof. unfold fdct_col. wr_all. Qed.
Global Hint Resolve wr_fdct_row wr_fdct_col : wr.
Lemma wr_fdct P b : wr (fdct P b). Proof. unfold fdct. wr_all. Qed.
Global Hint Resolve wr_fdct : wr.

Lemma wr_get_num_bits P v : wr (get_num_bits P v). Proof. unfold get_num_bits. wr_all. Qed.
Lemma wr_inc_freq P f i : wr (inc_freq P f i). Proof. unfold inc_freq. wr_all. Qed.
Global Hint Resolve wr_get_num_bits wr_inc_freq : wr.
Lemma wr_count_dc P : forall bs p f, wr (count_dc P bs p f).
Proof. induction bs; intros; cbn [count_dc]; wr_all. Qed.
Lemma wr_count_zrl P n : forall z f, wr (count_zrl P n z f).
Proof. induction n; intros; cbn [count_zrl]; wr_all. Qed.
Global Hint Resolve wr_count_dc wr_count_zrl : wr.
Lemma wr_count_ac_loop P : forall vs z f, wr (count_ac_loop P vs z f).
Proof. induction vs; intros; cbn [count_ac_loop]; wr_all. Qed.
Global Hint Resolve wr_count_ac_loop : wr.
Lemma wr_count_ac P b s e f : wr (count_ac P b s e f). Proof. unfold count_ac. wr_all. Qed.
Lemma wr_opt_bands P s : wr (opt_bands P s). Proof. unfold opt_bands. wr_all. Qed.
Lemma wr_prog_bands P s : wr (prog_bands P s). Proof. unfold prog_bands. wr_all. Qed.
Global Hint Resolve wr_count_ac wr_opt_bands wr_prog_bands : wr.
Lemma wr_optimize_table P e cs bs t : wr (optimize_table P e cs bs t). Proof. unfold optimize_table. wr_all. Qed.
Global Hint Resolve wr_optimize_table : wr.
Lemma wr_tables_for P e cs bs : wr (tables_for P e cs bs). Proof. unfold tables_for, optimize_huffman_table. wr_all. Qed.
Lemma wr_enc_frame P e cs ht im q0 q1 : wr (enc_write_frame_header P e cs ht im q0 q1).
Proof. unfold enc_write_frame_header. wr_all. Qed.
Lemma wr_sequential_scan P ri bs dc ac w : wr (sequential_scan P ri bs dc ac w). Proof. unfold sequential_scan. wr_all. Qed.
Lemma wr_dc_scan P ri bs dc w : wr (dc_scan P ri bs dc w). Proof. unfold dc_scan. wr_all. Qed.
Lemma wr_ac_scan P ri bs s e ac w : wr (ac_scan P ri bs s e ac w). Proof. unfold ac_scan. wr_all. Qed.
Global Hint Resolve wr_tables_for wr_enc_frame wr_sequential_scan wr_dc_scan wr_ac_scan : wr.

(** The transform and the user's image buffer have no access to the sink. *)
Definition op_wr (op : operations) : Prop := forall P b, wr (op_fdct op P b).
Definition im_wr (im : image) : Prop := forall y bs, wr (im_fill im y bs).
Lemma default_op_wr : op_wr default_operations.
Proof. intros P b. apply wr_fdct. Qed.

Section Enc.
  Variable op : operations.
  Variable Hop : op_wr op.
  Variable im : image.
  Variable Him : im_wr im.
  Hint Resolve Hop Him : wr.

  Lemma wr_make_block P r a b c d w q : wr (make_block P op r a b c d w q).
  Proof. unfold make_block. wr_all. Qed.
  Lemma wr_fill_rows bw ys row : wr (fill_rows im bw ys row).
  Proof. unfold fill_rows. wr_all. Qed.
  Hint Resolve wr_make_block wr_fill_rows : wr.
  Lemma wr_mcu P cs ht qs mh mv bw row bx st : wr (write_mcu P op cs ht qs mh mv bw row bx st).
  Proof. unfold write_mcu. wr_all. Qed.
  Hint Resolve wr_mcu : wr.
  Lemma wr_interleaved P e cs q0 q1 w : wr (encode_image_interleaved P op e cs im q0 q1 w).
  Proof. unfold encode_image_interleaved. wr_all. Qed.
  Lemma wr_encode_blocks P cs q0 q1 : wr (encode_blocks P op cs im q0 q1).
  Proof. unfold encode_blocks. wr_all. Qed.
  Hint Resolve wr_encode_blocks : wr.
  Lemma wr_sequential P e cs q0 q1 w : wr (encode_image_sequential P op e cs im q0 q1 w).
  Proof. unfold encode_image_sequential. wr_all. Qed.
  Lemma wr_progressive P e s cs q0 q1 w : wr (encode_image_progressive P op e s cs im q0 q1 w).
  Proof. unfold encode_image_progressive. wr_all. Qed.
  Hint Resolve wr_interleaved wr_sequential wr_progressive : wr.

  Lemma wr_internal P e : im_width im <> 0 -> im_height im <> 0 -> wr (encode_image_internal P op e im).
  Proof.
    intros Hw Hh. unfold encode_image_internal.
    apply Z.eqb_neq in Hw, Hh. rewrite Hw, Hh. cbn [orb]. wr_all.
  Qed.
End Enc.

Lemma wr_get_line P d y w n : wr (get_line P d y w n). Proof. unfold get_line. wr_all. Qed.
Global Hint Resolve wr_get_line : wr.
Lemma wr_image_of P data w h c : im_wr (image_of P data w h c).
Proof. intros y bs. destruct c; cbn; wr_all. Qed.

(** ** Writes of a program, and arbitrary sinks *)
Fixpoint writes {A} (p : prog A) : list (list Z) :=
  match p with
  | WriteAll bs k => bs :: writes (k None)
  | _ => []
  end.

(** Offer the chunks to the sink one after the other until it reports an error. *)
Fixpoint feed {S} (w : S -> list Z -> S * option error) (s : S) (chunks : list (list Z)) : S * option error :=
  match chunks with
  | [] => (s, None)
  | c :: cs => match w s c with
               | (s', None) => feed w s' cs
               | (s', Some e) => (s', Some e)
               end
  end.

Lemma wr_concat {A} (p : prog A) : fst (exec p) = concat (writes p).
Proof.
  induction p as [a|e|r|bs k IH]; cbn [exec writes concat]; try reflexivity.
  rewrite <- IH. now destruct (exec (k None)).
Qed.

Lemma wr_run {A} (p : prog A) : wr p -> forall S (w : S -> list Z -> S * option error) s,
  run w p s = match feed w s (writes p) with
              | (s', Some e) => (s', Err e)
              | (s', None) => (s', snd (exec p))
              end.
Proof.
  intros Hp S w. induction Hp as [a|r|bs k Hk Hn IH]; intros s; cbn [run writes feed exec]; try reflexivity.
  destruct (w s bs) as [s' [e|]].
  - rewrite Hk. reflexivity.
  - rewrite IH. destruct (feed w s' (writes (k None))) as [s2 [e2|]]; [reflexivity|].
    now destruct (exec (k None)).
Qed.

Lemma wr_not_err {A} (p : prog A) : wr p -> forall o e, exec p <> (o, Err e).
Proof.
  intros Hp. induction Hp as [a|r|bs k Hk Hn IH]; intros o e; cbn [exec]; try discriminate.
  destruct (exec (k None)) as [o' r'] eqn:E. intros X; inversion X; subst. exact (IH o' e eq_refl).
Qed.
