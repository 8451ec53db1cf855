(** What can go wrong in encoder.rs, for arbitrary input. *)
From Verif Require Export PSafe PForest.
From Verif Require Import MFdct PFdct PQuant PApi PRound.
From Coq Require Import ZArith List Bool Lia ZifyBool ZifyNat.
Import ListNotations.
Open Scope Z_scope.

Section Enc.
  Variable R : panic_reason -> Prop.
  Variable P : platform.
  Variable HR : R PIndex.
  Variable HO : dbg P = true -> R POverflow.
  Variable HD : dbg P = true -> R PDebugAssert.
  Variable HP : plat_ok P.
  Notation safe := (PSafe.safe R).
  Notation any := (fun _ => True).

  Lemma safe_ret_any {A} (a : A) : safe any (Ret a).
  Proof. now constructor. Qed.
  Lemma safe_ck_s_any n z : 1 <= n -> safe any (ck_s P n z).
  Proof. intros. eapply safe_weaken; [|apply safe_ck_s; assumption]. trivial. Qed.
  Lemma safe_ck_u_any n z : 0 <= n -> safe any (ck_u P n z).
  Proof. intros. eapply safe_weaken; [|apply safe_ck_u; assumption]. trivial. Qed.
  Lemma safe_ck_usize_any z : safe any (ck_usize P z).
  Proof. apply safe_ck_usize; assumption. Qed.
  Lemma safe_dassert_any b : safe any (debug_assert P b).
  Proof. apply safe_dassert; assumption. Qed.
  Lemma safe_index_any {A} (l : list A) i : safe any (index l i).
  Proof. eapply safe_weaken; [|apply safe_index; exact HR]. trivial. Qed.
  Lemma safe_bind_any {A B} (Q : B -> Prop) (m : prog A) f : safe any m -> (forall a, safe Q (f a)) -> safe Q (bind m f).
  Proof. intros Hm Hf. eapply safe_bind; [exact Hm|]. intros a _. apply Hf. Qed.
  Lemma safe_mapM_any {A X} (f : X -> prog A) l : (forall x, safe any (f x)) -> safe any (mapM f l).
  Proof. intros H. eapply safe_weaken; [|apply (safe_mapM R any)]; [trivial|]. intros x _. apply H. Qed.
  Lemma safe_foldM_any {A X} (f : A -> X -> prog A) l a : (forall a x, safe any (f a x)) -> safe any (foldM f l a).
  Proof. intros H. apply safe_foldM; [intros; apply H|exact I]. Qed.
  Lemma safe_write_any bs : safe any (write_all bs).
  Proof. apply safe_write_all. Qed.
  Lemma safe_assert_true : safe any (assert_ true).
  Proof. now constructor. Qed.

  (** ** fdct.rs and quantization *)
  Lemma safe_32 a b : safe any (add32 P a b) /\ safe any (sub32 P a b) /\ safe any (mul32 P a b).
  Proof. repeat split; apply safe_ck_s_any; lia. Qed.
  Lemma safe_descale a b : safe any (descale P a b).
  Proof. unfold descale. apply safe_bind_any; [apply safe_32|]. intros s. constructor. exact I. Qed.
  Lemma safe_fdct_row a b c d e f g h : safe any (fdct_row P a b c d e f g h).
  Proof.
    unfold fdct_row.
    repeat (cbv zeta; apply safe_bind_any; [first [apply safe_descale|apply safe_32]|intros ?]). constructor. exact I.
  Qed.
  Lemma safe_fdct_col a b c d e f g h : safe any (fdct_col P a b c d e f g h).
  Proof.
    unfold fdct_col.
    repeat (cbv zeta; apply safe_bind_any; [first [apply safe_descale|apply safe_32]|intros ?]). constructor. exact I.
  Qed.
  Lemma safe_fdct b : safe any (fdct P b).
  Proof.
    unfold fdct. apply safe_bind_any; [apply safe_mapM_any; intros; apply safe_fdct_row|]. intros rows. cbv zeta.
    apply safe_bind_any; [apply safe_mapM_any; intros; apply safe_fdct_col|]. intros cols. constructor. exact I.
  Qed.
  Lemma safe_quantize q v i : safe any (quantize P q v i).
  Proof.
    unfold quantize. cbv zeta. repeat (apply safe_bind_any; [apply safe_ck_s_any; lia|intros ?]). constructor. exact I.
  Qed.

  (** ** Blocks *)
  Variable op : operations.
  Hypothesis Hop : forall b, safe any (op_fdct op P b).

  Lemma safe_make_block r x y c s w q : safe any (make_block P op r x y c s w q).
  Proof.
    unfold make_block. apply safe_bind_any.
    - unfold get_block. apply safe_mapM_any. intros i. cbv zeta. apply safe_bind_any; [apply safe_index_any|]. intros d. constructor. exact I.
    - intros b. apply safe_bind_any; [apply Hop|]. intros b'. unfold quantize_block. apply safe_mapM_any. intros i. cbv zeta. apply safe_quantize.
  Qed.

  Variable im : image.
  Hypothesis Him : forall y b, safe any (im_fill im y b).

  Lemma safe_fill_rows bw ys row : safe any (fill_rows im bw ys row).
  Proof.
    unfold fill_rows. apply safe_foldM_any. intros a y. cbv zeta. apply safe_bind_any; [apply Him|]. intros b. constructor. exact I.
  Qed.

  Definition comps_ok (cs : list component) : Prop := length cs = 1%nat \/ length cs = 3%nat \/ length cs = 4%nat.
  Lemma safe_init_rows cs : comps_ok cs -> safe any (init_rows cs).
  Proof. unfold comps_ok, init_rows. intros [-> | [-> | ->]]; constructor; exact I. Qed.

  Lemma safe_encode_blocks cs q0 q1 : comps_ok cs -> safe any (encode_blocks P op cs im q0 q1).
  Proof.
    intros Hc. unfold encode_blocks. destruct (max_sampling cs) as [mh mv]. cbv zeta.
    apply safe_bind_any; [apply safe_dassert_any|]. intros _. apply safe_bind_any; [apply safe_dassert_any|]. intros _.
    apply safe_bind_any; [apply safe_ck_usize_any|]. intros _. apply safe_bind_any; [now apply safe_init_rows|]. intros row0.
    apply safe_bind_any; [apply safe_fill_rows|]. intros row. apply safe_bind_any; [apply safe_dassert_any|]. intros _.
    apply safe_bind_any; [apply safe_dassert_any|]. intros _. apply safe_mapM_any. intros [i c]. cbv beta iota zeta.
    apply safe_bind_any; [apply safe_dassert_any|]. intros _. apply safe_bind_any; [apply safe_dassert_any|]. intros _.
    apply safe_bind_any; [|intros bs; constructor; exact I]. apply safe_mapM_any. intros y. apply safe_mapM_any. intros x.
    apply safe_bind_any; [apply safe_index_any|]. intros r. apply safe_bind_any; [apply safe_index_any|]. intros q. apply safe_make_block.
  Qed.

  (** ** Statistics *)
  Notation len257 := (fun f : list Z => length f = 257%nat).
  Lemma safe_num_bits v : safe any (get_num_bits P v).
  Proof.
    unfold get_num_bits. apply safe_bind_any; [destruct (v <? 0); [apply safe_ck_s_any; lia|apply safe_ret_any]|]. intros. constructor. exact I.
  Qed.
  Lemma safe_inc f i : len257 f -> safe len257 (inc_freq P f i).
  Proof.
    intros Hf. unfold inc_freq. apply safe_bind_any; [apply safe_index_any|]. intros x. apply safe_bind_any; [apply safe_ck_u_any; lia|].
    intros y. constructor. now rewrite upd_length.
  Qed.
  Lemma safe_count_dc : forall bs prev f, len257 f -> safe len257 (count_dc P bs prev f).
  Proof.
    induction bs as [|b bs IH]; intros prev f Hf; cbn [count_dc]; [now constructor|]. cbv zeta.
    apply safe_bind_any; [apply safe_ck_s_any; lia|]. intros d. apply safe_bind_any; [apply safe_num_bits|]. intros nb.
    eapply safe_bind; [apply safe_inc; exact Hf|]. intros f' Hf'. now apply IH.
  Qed.
  Lemma safe_count_zrl : forall n zr f, len257 f -> 0 <= zr < 16 * Z.of_nat n -> safe (fun p => len257 (fst p)) (count_zrl P n zr f).
  Proof.
    induction n as [|n IH]; intros zr f Hf Hz; [lia|]. cbn [count_zrl]. destruct (15 <? zr) eqn:E; [|now constructor].
    eapply safe_bind; [apply safe_inc; exact Hf|]. intros f' Hf'. apply IH; [exact Hf'|lia].
  Qed.
  Lemma safe_count_ac_loop : forall vals zr f, len257 f -> 0 <= zr < 256 -> safe (fun p => len257 (fst p)) (count_ac_loop P vals zr f).
  Proof.
    induction vals as [|v vals IH]; intros zr f Hf Hz; cbn [count_ac_loop]; [now constructor|]. destruct (v =? 0).
    - eapply safe_bind; [apply safe_ck_u; [exact HO|exact HD|lia]|]. intros z [Hz' _]. change (2 ^ 8) with 256 in Hz'. now apply IH.
    - eapply safe_bind; [apply safe_count_zrl; [exact Hf|lia]|]. intros [f' z'] Hf'. cbn [fst] in Hf'.
      apply safe_bind_any; [apply safe_num_bits|]. intros nb. cbv zeta. eapply safe_bind; [apply safe_inc; exact Hf'|].
      intros f'' Hf''. apply IH; [exact Hf''|lia].
  Qed.
  Lemma safe_count_ac b s e f : len257 f -> safe len257 (count_ac P b s e f).
  Proof.
    intros Hf. unfold count_ac. destruct (_ && _); [|now constructor]. eapply safe_bind; [apply safe_count_ac_loop; [exact Hf|lia]|].
    intros [f' z'] Hf'. cbn [fst] in Hf'. destruct (0 <? z'); [now apply safe_inc|now constructor].
  Qed.
  Lemma safe_bands (bands : Z -> prog (list (Z * Z))) scans : bands = opt_bands P \/ bands = prog_bands P -> 2 <= scans <= 64 ->
    safe any (bands scans).
  Proof.
    intros E Hs. assert (E' : bands scans = let* scans := ck_usize P (scans - 1) in
        if scans =? 0 then Panic POverflow else
        let values_per_scan := 64 / scans in
        Ret (map (fun scan => (Z.max (scan * values_per_scan) 1, if scan =? scans - 1 then 64 else (scan + 1) * values_per_scan)) (zrange scans)))
      by (destruct E as [-> | ->]; reflexivity).
    rewrite E'. unfold ck_usize, ck_u. assert (B : 2 ^ 32 <= 2 ^ ubits P) by (apply Z.pow_le_mono_r; [lia|destruct HP as [-> | ->]; lia]).
    change (2 ^ 32) with 4294967296 in B. replace ((0 <=? scans - 1) && (scans - 1 <? 2 ^ ubits P)) with true by lia. cbn [bind].
    replace (scans - 1 =? 0) with false by lia. constructor. exact I.
  Qed.

  Variable e : encoder.
  Hypothesis Hprog : match e_prog e with Some n => 2 <= n <= 64 | None => True end.
  Hypothesis Hhuff : Forall (fun t => tok (fst t) /\ tok (snd t)) (e_huff e).

  Definition stats_ok (dc ac : bool) (st : list Z * list Z * bool * bool) : Prop :=
    let '(d, a, hd, ha) := st in len257 d /\ len257 a /\ (dc = true -> hd = true) /\ (ac = true -> ha = true).

  Lemma safe_stats table blocks : forall l d a hd ha, len257 d -> len257 a ->
    safe (stats_ok (hd || existsb (fun p => c_dc (snd p) =? table) l) (ha || existsb (fun p => c_ac (snd p) =? table) l))
      (foldM (fun '(dc_freq, ac_freq, had_dc, had_ac) '(i, c) =>
        let* bs := index blocks i in
        let* '(dc_freq, had_dc) :=
          (if c_dc c =? table then
             debug_assert P (negb (length bs =? 0)%nat) ;;;
             let* f := count_dc P bs 0 dc_freq in Ret (f, true)
           else Ret (dc_freq, had_dc)) in
        let* '(ac_freq, had_ac) :=
          (if c_ac c =? table then
             match e_prog e with
             | Some scans =>
               let* bands := opt_bands P scans in
               let* f := foldM (fun freq '(start, end_) =>
                           debug_assert P (negb (length bs =? 0)%nat) ;;;
                           foldM (fun freq block => count_ac P block start end_ freq) bs freq)
                         bands ac_freq in
               Ret (f, true)
             | None =>
               let* f := foldM (fun freq block => count_ac P block 1 64 freq) bs ac_freq in
               Ret (f, true)
             end
           else Ret (ac_freq, had_ac)) in
        Ret (dc_freq, ac_freq, had_dc, had_ac)) l (d, a, hd, ha)).
  Proof.
    induction l as [|[i c] l IH]; intros d a hd ha Hd Ha; cbn [foldM existsb].
    - constructor. rewrite !orb_false_r. cbn. auto.
    - eapply safe_bind.
      + instantiate (1 := fun st => let '(d, a, hd', ha') := st in len257 d /\ len257 a /\
           hd' = (hd || (c_dc c =? table)) /\ ha' = (ha || (c_ac c =? table))).
        apply safe_bind_any; [apply safe_index_any|]. intros bs. eapply safe_bind.
        * instantiate (1 := fun p => len257 (fst p) /\ snd p = (hd || (c_dc c =? table))). destruct (c_dc c =? table).
          -- apply safe_bind_any; [apply safe_dassert_any|]. intros _. eapply safe_bind; [apply safe_count_dc; exact Hd|]. intros f Hf.
             constructor. split; [exact Hf|]. now rewrite orb_true_r.
          -- constructor. split; [exact Hd|]. now rewrite orb_false_r.
        * intros [d' hd'] [Hd' Ehd]. cbn [fst snd] in *. eapply safe_bind.
          -- instantiate (1 := fun p => len257 (fst p) /\ snd p = (ha || (c_ac c =? table))). destruct (c_ac c =? table).
             ++ destruct (e_prog e) as [scans|].
                ** apply safe_bind_any; [now apply (safe_bands (opt_bands P)); [left|]|]. intros bands. eapply safe_bind.
                   --- apply (safe_foldM R len257); [|exact Ha]. intros f [s en] _ Hf. apply safe_bind_any; [apply safe_dassert_any|]. intros _.
                       apply (safe_foldM R len257); [|exact Hf]. intros f' b _ Hf'. now apply safe_count_ac.
                   --- intros f Hf. constructor. split; [exact Hf|]. now rewrite orb_true_r.
                ** eapply safe_bind; [apply (safe_foldM R len257); [|exact Ha]; intros f' b _ Hf'; now apply safe_count_ac|].
                   intros f Hf. constructor. split; [exact Hf|]. now rewrite orb_true_r.
             ++ constructor. split; [exact Ha|]. now rewrite orb_false_r.
          -- intros [a' ha'] [Ha' Eha]. cbn [fst snd] in *. constructor. auto.
      + intros [[[d' a'] hd'] ha'] (Hd' & Ha' & -> & ->). cbn [snd]. rewrite !orb_assoc. now apply IH.
  Qed.

  Lemma safe_optimize_table cs blocks table :
    (exists c, In c cs /\ c_dc c = table /\ c_ac c = table) ->
    safe (fun t => tok (fst t) /\ tok (snd t)) (optimize_table P e cs blocks table).
  Proof.
    intros (c & Hin & Edc & Eac). unfold optimize_table. eapply safe_bind; [apply safe_stats; reflexivity|].
    assert (Hex : exists i, In (i, c) (enumerate cs)).
    { unfold enumerate. apply In_nth with (d := c) in Hin as (n & Hn & E). exists (Z.of_nat n).
      rewrite <- E. unfold zrange, zlen. rewrite Nat2Z.id.
      replace (Z.of_nat n, nth n cs c) with (nth n (combine (map Z.of_nat (seq 0 (length cs))) cs) (0, c)).
      - apply nth_In. rewrite combine_length, map_length, seq_length. lia.
      - rewrite combine_nth by (now rewrite map_length, seq_length). f_equal. rewrite nth_indep with (d' := Z.of_nat 0) by (rewrite map_length, seq_length; lia).
        rewrite map_nth, seq_nth by lia. reflexivity. }
    destruct Hex as [i Hi].
    intros [[[d a] hd] ha] (Hd & Ha & H1 & H2). rewrite H1, H2.
    - cbn [assert_ bind]. eapply safe_bind; [apply safe_new_optimized; [exact HR|exact HO|exact HD|exact Hd]|]. intros dc Hdc.
      eapply safe_bind; [apply safe_new_optimized; [exact HR|exact HO|exact HD|exact Ha]|]. intros ac Hac. constructor. now split.
    - cbn [orb]. apply existsb_exists. exists (i, c). split; [exact Hi|]. cbn [snd]. lia.
    - cbn [orb]. apply existsb_exists. exists (i, c). split; [exact Hi|]. cbn [snd]. lia.
  Qed.

  Notation tables_ok := (Forall (fun t : htab * htab => tok (fst t) /\ tok (snd t))).
  Lemma safe_tables_for cs blocks :
    (forall table, In table (zrange (Z.min (zlen cs) 2)) -> exists c, In c cs /\ c_dc c = table /\ c_ac c = table) ->
    safe tables_ok (tables_for P e cs blocks).
  Proof.
    intros Hc. unfold tables_for. destruct (e_optimize e); [|constructor; exact Hhuff]. unfold optimize_huffman_table. cbv zeta.
    apply (safe_foldM R tables_ok); [|exact Hhuff]. intros ht table Hin Hht. eapply safe_bind; [apply safe_optimize_table; now apply Hc|].
    intros t Ht. constructor. apply Forall_upd; assumption.
  Qed.

  (** ** Scans *)
  Lemma safe_restart_after ri r t : safe any (restart_after P ri r t).
  Proof.
    unfold restart_after. destruct (0 <? ri); [|apply safe_ret_any]. destruct (t =? 0); cbv iota beta zeta;
      (apply safe_bind_any; [apply safe_ck_u_any; lia|intros; constructor; exact I]).
  Qed.
  Lemma safe_restart_before (b : bool) {A} w (a a0 : A) r : wok P w ->
    safe (fun p => wok P (fst p)) (if b then let* w := finalize_bit_buffer P w in write_marker (RST r) ;;; Ret (w, a) else Ret (w, a0)).
  Proof.
    intros Hw. destruct b; [|now constructor]. eapply safe_bind; [apply safe_finalize; assumption|]. intros w1 Hw1.
    apply safe_bind_any; [apply safe_write_any|]. intros _. now constructor.
  Qed.

  Lemma safe_sequential_scan ri bs dc ac w : wok P w -> tok dc -> tok ac -> safe (wok P) (sequential_scan P ri bs dc ac w).
  Proof.
    intros Hw Hd Ha. unfold sequential_scan. eapply safe_bind.
    - apply (safe_foldM R (fun st => let '(w, _, _, _) := st in wok P w)); [|exact Hw].
      intros [[[w1 prev] r] t] b _ Hw1. eapply safe_bind; [apply (safe_restart_before _ w1 0 prev); exact Hw1|]. intros [w2 prev2] Hw2. cbn [fst] in Hw2.
      eapply safe_bind; [apply safe_block; eassumption|]. intros w3 Hw3. cbv zeta. apply safe_bind_any; [apply safe_restart_after|].
      intros [r' t']. now constructor.
    - intros [[[w1 prev] r] t] Hw1. now apply safe_finalize.
  Qed.
  Lemma safe_dc_scan ri bs dc w : wok P w -> tok dc -> safe (wok P) (dc_scan P ri bs dc w).
  Proof.
    intros Hw Hd. unfold dc_scan. eapply safe_bind.
    - apply (safe_foldM R (fun st => let '(w, _, _, _) := st in wok P w)); [|exact Hw].
      intros [[[w1 prev] r] t] b _ Hw1. eapply safe_bind; [apply (safe_restart_before _ w1 0 prev); exact Hw1|]. intros [w2 prev2] Hw2. cbn [fst] in Hw2.
      eapply safe_bind; [apply safe_write_dc; eassumption|]. intros w3 Hw3. cbv zeta. apply safe_bind_any; [apply safe_restart_after|].
      intros [r' t']. now constructor.
    - intros [[[w1 prev] r] t] Hw1. now apply safe_finalize.
  Qed.
  Lemma safe_ac_scan ri bs s en ac w : wok P w -> tok ac -> safe (wok P) (ac_scan P ri bs s en ac w).
  Proof.
    intros Hw Ha. unfold ac_scan. eapply safe_bind.
    - apply (safe_foldM R (fun st => let '(w, _, _) := st in wok P w)); [|exact Hw].
      intros [[w1 r] t] b _ Hw1. eapply safe_bind.
      + instantiate (1 := wok P). destruct (_ && _); [|now constructor]. eapply safe_bind; [apply safe_finalize; assumption|]. intros w2 Hw2.
        apply safe_bind_any; [apply safe_write_any|]. intros _. now constructor.
      + intros w2 Hw2. eapply safe_bind; [apply safe_ac_block; eassumption|]. intros w3 Hw3. apply safe_bind_any; [apply safe_restart_after|].
        intros [r' t']. now constructor.
    - intros [[w1 r] t] Hw1. now apply safe_finalize.
  Qed.

  (** ** Headers *)
  Lemma safe_huffman_segment c d t : d < 4 -> safe any (write_huffman_segment P c d t).
  Proof.
    intros Hd. unfold write_huffman_segment. apply safe_bind_any; [unfold assert_; replace (d <? 4) with true by lia; constructor; exact I|intros _].
    repeat first [apply safe_bind_any; [first [apply safe_write_any|apply safe_ck_u_any; lia]|intros ?]|apply safe_write_any].
  Qed.
  Lemma safe_quant_segment d q : d < 4 -> safe any (write_quantization_segment d q).
  Proof.
    intros Hd. unfold write_quantization_segment. apply safe_bind_any; [unfold assert_; replace (d <? 4) with true by lia; constructor; exact I|intros _].
    do 3 (apply safe_bind_any; [apply safe_write_any|intros ?]). apply safe_foldM_any. intros. apply safe_write_any.
  Qed.
  Lemma safe_frame_header cs ht q0 q1 : safe any (enc_write_frame_header P e cs ht im q0 q1).
  Proof.
    unfold enc_write_frame_header. apply safe_bind_any.
    - unfold write_frame_header. do 6 (apply safe_bind_any; [apply safe_write_any|intros ?]). apply safe_foldM_any. intros.
      repeat (apply safe_bind_any; [apply safe_write_any|intros ?]). apply safe_write_any.
    - intros _. repeat (apply safe_bind_any; [apply safe_quant_segment; lia|intros ?]). apply safe_bind_any; [apply safe_index_any|]. intros h0.
      repeat (apply safe_bind_any; [apply safe_huffman_segment; lia|intros ?]). apply safe_bind_any.
      + destruct (3 <=? _); [|apply safe_ret_any]. apply safe_bind_any; [apply safe_index_any|]. intros h1.
        apply safe_bind_any; [apply safe_huffman_segment; lia|intros ?]. apply safe_huffman_segment. lia.
      + intros _. destruct (e_restart e); [|apply safe_ret_any]. unfold write_dri. repeat (apply safe_bind_any; [apply safe_write_any|intros ?]).
        apply safe_write_any.
  Qed.
  Lemma safe_scan_header cs sp : safe any (write_scan_header cs sp).
  Proof.
    unfold write_scan_header. do 3 (apply safe_bind_any; [apply safe_write_any|intros ?]). apply safe_bind_any.
    - apply safe_foldM_any. intros. apply safe_bind_any; [apply safe_write_any|intros ?]. apply safe_write_any.
    - intros _. destruct (match sp with Some p => p | None => (0, 63) end). repeat (apply safe_bind_any; [apply safe_write_any|intros ?]). apply safe_write_any.
  Qed.
  Lemma safe_segment m d : safe any (write_segment P m d).
  Proof.
    unfold write_segment. apply safe_bind_any; [apply safe_write_any|intros _]. apply safe_bind_any; [apply safe_ck_u_any; lia|]. intros n.
    apply safe_bind_any; [apply safe_write_any|intros _]. apply safe_write_any.
  Qed.
  Lemma safe_header d : safe any (write_header d).
  Proof.
    unfold write_header. repeat (apply safe_bind_any; [apply safe_write_any|intros ?]). apply safe_bind_any; [|intros; apply safe_write_any].
    destruct d; repeat (apply safe_bind_any; [apply safe_write_any|intros ?]); apply safe_write_any.
  Qed.

  Lemma safe_dc_table ht c : tables_ok ht -> safe tok (dc_table ht c).
  Proof.
    intros H. unfold dc_table. eapply safe_bind; [apply safe_index; exact HR|]. intros t Ht. constructor. rewrite Forall_forall in H. now apply H.
  Qed.
  Lemma safe_ac_table ht c : tables_ok ht -> safe tok (ac_table ht c).
  Proof.
    intros H. unfold ac_table. eapply safe_bind; [apply safe_index; exact HR|]. intros t Ht. constructor. rewrite Forall_forall in H. now apply H.
  Qed.

  Definition all_tables (cs : list component) : Prop :=
    forall table, In table (zrange (Z.min (zlen cs) 2)) -> exists c, In c cs /\ c_dc c = table /\ c_ac c = table.

  Lemma safe_sequential cs q0 q1 w : comps_ok cs -> all_tables cs -> wok P w -> safe (wok P) (encode_image_sequential P op e cs im q0 q1 w).
  Proof.
    intros Hc Ht Hw. unfold encode_image_sequential. apply safe_bind_any; [now apply safe_encode_blocks|]. intros blocks.
    eapply safe_bind; [apply safe_tables_for; exact Ht|]. intros ht Hht. apply safe_bind_any; [apply safe_frame_header|]. intros _. cbv zeta.
    apply (safe_foldM R (wok P)); [|exact Hw]. intros w1 [i c] _ Hw1. apply safe_bind_any; [apply safe_scan_header|]. intros _.
    apply safe_bind_any; [apply safe_index_any|]. intros bs. eapply safe_bind; [apply safe_dc_table; exact Hht|]. intros dc Hdc.
    eapply safe_bind; [apply safe_ac_table; exact Hht|]. intros ac Hac. now apply safe_sequential_scan.
  Qed.
  Lemma safe_progressive n cs q0 q1 w : 2 <= n <= 64 -> comps_ok cs -> all_tables cs -> wok P w ->
    safe (wok P) (encode_image_progressive P op e n cs im q0 q1 w).
  Proof.
    intros Hn Hc Ht Hw. unfold encode_image_progressive. apply safe_bind_any; [now apply safe_encode_blocks|]. intros blocks.
    eapply safe_bind; [apply safe_tables_for; exact Ht|]. intros ht Hht. apply safe_bind_any; [apply safe_frame_header|]. intros _. cbv zeta.
    eapply safe_bind.
    - apply (safe_foldM R (wok P)); [|exact Hw]. intros w1 [i c] _ Hw1. apply safe_bind_any; [apply safe_scan_header|]. intros _.
      apply safe_bind_any; [apply safe_index_any|]. intros bs. eapply safe_bind; [apply safe_dc_table; exact Hht|]. intros dc Hdc. now apply safe_dc_scan.
    - intros w1 Hw1. apply safe_bind_any; [now apply (safe_bands (prog_bands P)); [right|]|]. intros bands.
      apply (safe_foldM R (wok P)); [|exact Hw1]. intros w2 [s en] _ Hw2. apply (safe_foldM R (wok P)); [|exact Hw2]. intros w3 [i c] _ Hw3.
      apply safe_bind_any; [apply safe_ck_u_any; lia|]. intros se. apply safe_bind_any; [apply safe_scan_header|]. intros _.
      apply safe_bind_any; [apply safe_index_any|]. intros bs. eapply safe_bind; [apply safe_ac_table; exact Hht|]. intros ac Hac. now apply safe_ac_scan.
  Qed.
  Lemma safe_mcu cs ht qs mh mv bw row x w prev : tables_ok ht -> wok P w ->
    safe (fun st => wok P (fst st)) (write_mcu P op cs ht qs mh mv bw row x (w, prev)).
  Proof.
    intros Hht Hw. unfold write_mcu. apply (safe_foldM R (fun st => wok P (fst st))); [|exact Hw]. intros st [i c] _ Hst.
    apply (safe_foldM R (fun st => wok P (fst st))); [|exact Hst]. intros st1 v _ Hst1.
    apply (safe_foldM R (fun st => wok P (fst st))); [|exact Hst1]. intros [w2 p2] h _ Hst2. cbn [fst] in Hst2.
    apply safe_bind_any; [apply safe_index_any|]. intros r. apply safe_bind_any; [apply safe_index_any|]. intros q.
    apply safe_bind_any; [apply safe_make_block|]. intros b. eapply safe_bind; [apply safe_dc_table; exact Hht|]. intros dc Hdc.
    eapply safe_bind; [apply safe_ac_table; exact Hht|]. intros ac Hac. apply safe_bind_any; [apply safe_index_any|]. intros pv.
    eapply safe_bind; [apply safe_block; eassumption|]. intros w3 Hw3. now constructor.
  Qed.
  Lemma safe_interleaved cs q0 q1 w : comps_ok cs -> wok P w -> safe (wok P) (encode_image_interleaved P op e cs im q0 q1 w).
  Proof.
    intros Hc Hw. unfold encode_image_interleaved. apply safe_bind_any; [apply safe_frame_header|]. intros _.
    apply safe_bind_any; [apply safe_scan_header|]. intros _. destruct (max_sampling cs) as [mh mv]. cbv zeta.
    apply safe_bind_any; [apply safe_ck_usize_any|]. intros _. apply safe_bind_any; [now apply safe_init_rows|]. intros row0.
    eapply safe_bind.
    - apply (safe_foldM R (fun st => let '(w, _, _, _) := st in wok P w)); [|exact Hw]. intros st y _ Hst.
      apply safe_bind_any; [apply safe_fill_rows|]. intros row. apply (safe_foldM R (fun st => let '(w, _, _, _) := st in wok P w)); [|exact Hst].
      intros [[[w1 prev] r] t] x _ Hw1. eapply safe_bind; [apply (safe_restart_before _ w1 [0;0;0;0] prev); exact Hw1|].
      intros [w2 p2] Hw2. cbn [fst] in Hw2. eapply safe_bind; [apply safe_mcu; [exact Hhuff|exact Hw2]|]. intros [w3 p3] Hw3. cbn [fst] in Hw3.
      apply safe_bind_any; [apply safe_restart_after|]. intros [r' t']. now constructor.
    - intros [[[w1 prev] r] t] Hw1. now apply safe_finalize.
  Qed.

  Hypothesis Hempty : e_components e = [].
  Lemma comps_init s c : comps_ok (init_components s c) /\ all_tables (init_components s c).
  Proof.
    unfold init_components, comps_ok, all_tables. destruct (sampling_factors s) as [h v]. destruct c; cbn [length]; (split; [lia|]);
      cbn [zlen length]; intros t Ht; cbn in Ht.
    all: repeat (destruct Ht as [<-|Ht]; [|try contradiction Ht]); try contradiction Ht;
      first [ eexists; split; [left; reflexivity|now split] | eexists; split; [right; left; reflexivity|now split]
            | eexists; split; [right; right; right; left; reflexivity|now split] ].
  Qed.

  Lemma safe_internal : safe any (encode_image_internal P op e im).
  Proof.
    unfold encode_image_internal. destruct (_ || _); [constructor|].
    apply safe_bind_any; [apply safe_index_any|]. intros t0. rewrite new_with_quality_ret. cbn [bind].
    apply safe_bind_any; [apply safe_index_any|]. intros t1. rewrite new_with_quality_ret. cbn [bind]. cbv zeta. rewrite Hempty. cbn [app].
    destruct (comps_init (e_sampling e) (im_color im)) as [Hc Ht].
    apply safe_bind_any; [apply safe_write_any|]. intros _. apply safe_bind_any; [apply safe_header|]. intros _.
    apply safe_bind_any; [destruct (im_color im); first [apply safe_ret_any|apply safe_segment]|]. intros _.
    apply safe_bind_any; [apply safe_foldM_any; intros _ [nr d]; apply safe_segment|]. intros _.
    assert (Hw : wok P (bitw_new P)).
    { unfold wok, bitw_new. cbn [free_bits]. pose proof (buffer_size P HP). lia. }
    eapply safe_bind.
    - match goal with |- PSafe.safe _ _ (match _ with Some n => @?f n | None => ?g end) =>
        assert (G : forall o, o = e_prog e -> safe (wok P) (match o with Some n => f n | None => g end)); [|exact (G _ eq_refl)] end.
      cbv beta. intros [n|] Eo; [apply safe_progressive; [|assumption..]; pose proof Hprog as Hp; rewrite <- Eo in Hp; exact Hp|].
      destruct (_ || _); [now apply safe_sequential|now apply safe_interleaved].
    - intros w _. apply safe_write_any.
  Qed.
End Enc.
