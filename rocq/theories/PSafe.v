(** What can go wrong, for arbitrary input: a Hoare-style predicate on programs that bounds the reasons for
    panics, and the proof that encoding meets it.  In particular no loop of the model runs out of fuel. *)
From Verif Require Export MApi PExec.
From Verif Require Import PTree PLimit.
From Coq Require Import ZArith List Bool Lia ZifyBool ZifyNat Permutation.
Import ListNotations.
Open Scope Z_scope.

(** [safe R Q m]: if [m] panics the reason is in [R]; if it returns the result is in [Q]. *)
Inductive safe (R : panic_reason -> Prop) {A} (Q : A -> Prop) : prog A -> Prop :=
| safe_ret a : Q a -> safe R Q (Ret a)
| safe_throw e : safe R Q (Throw e)
| safe_panic r : R r -> safe R Q (Panic r)
| safe_write bs k : (forall r, safe R Q (k r)) -> safe R Q (WriteAll bs k).

Lemma safe_run R {A} (Q : A -> Prop) m : safe R Q m -> forall S (w : S -> list Z -> S * option error) s,
  match snd (run w m s) with Ok a => Q a | Err _ => True | Panicked r => R r end.
Proof.
  intros H S w. induction H as [a H|e|r H|bs k H IH]; intros s; cbn [run snd]; auto.
  destruct (w s bs) as [s' r]. apply IH.
Qed.
Lemma safe_exec R {A} (Q : A -> Prop) m : safe R Q m ->
  match snd (exec m) with Ok a => Q a | Err _ => True | Panicked r => R r end.
Proof.
  intros H. induction H as [a H|e|r H|bs k H IH]; cbn [exec snd]; auto.
  specialize (IH None). destruct (exec (k None)) as [o r]. exact IH.
Qed.

Lemma wrap_s_range n z : 1 <= n -> - 2 ^ (n - 1) <= wrap_s n z < 2 ^ (n - 1).
Proof.
  intros Hn. unfold wrap_s. assert (E : 2 ^ n = 2 * 2 ^ (n - 1)) by (rewrite <- Z.pow_succ_r by lia; f_equal; lia).
  assert (0 < 2 ^ (n - 1)) by (apply Z.pow_pos_nonneg; lia).
  pose proof (Z.mod_pos_bound (z + 2 ^ (n - 1)) (2 ^ n) ltac:(lia)). lia.
Qed.

Section Safe.
  Variable R : panic_reason -> Prop.
  Notation safe := (safe R).

  Lemma safe_weaken {A} (Q1 Q2 : A -> Prop) m : (forall a, Q1 a -> Q2 a) -> safe Q1 m -> safe Q2 m.
  Proof. intros W H. induction H; constructor; auto. Qed.
  Lemma safe_bind {A B} (Q1 : A -> Prop) (Q2 : B -> Prop) m f :
    safe Q1 m -> (forall a, Q1 a -> safe Q2 (f a)) -> safe Q2 (bind m f).
  Proof. intros H Hf. induction H; cbn [bind]; try constructor; auto. Qed.
  Lemma safe_foldM {A X} (I : A -> Prop) (f : A -> X -> prog A) l :
    (forall a x, In x l -> I a -> safe I (f a x)) -> forall a, I a -> safe I (foldM f l a).
  Proof.
    induction l as [|x l IH]; intros Hf a Ha; cbn [foldM]; [now constructor|].
    eapply safe_bind; [apply Hf; [now left|exact Ha]|]. intros a' Ha'. apply IH; [|exact Ha']. intros b y Hy. apply Hf. now right.
  Qed.
  Lemma safe_mapM {A X} (Q : A -> Prop) (f : X -> prog A) l : (forall x, In x l -> safe Q (f x)) ->
    safe (fun ys => Forall Q ys /\ length ys = length l) (mapM f l).
  Proof.
    induction l as [|x l IH]; intros Hf; cbn [mapM]; [constructor; auto|].
    eapply safe_bind; [apply Hf; now left|]. intros y Hy. eapply safe_bind; [apply IH; intros z Hz; apply Hf; now right|].
    intros ys [Hys Hl]. constructor. split; [now constructor|cbn [length]; lia].
  Qed.
  Lemma safe_write_all bs : safe (fun _ => True) (write_all bs).
  Proof. constructor. intros [e|]; constructor. exact I. Qed.
  Lemma safe_index {A} (l : list A) i : R PIndex -> safe (fun a => In a l) (index l i).
  Proof.
    intros Hi. unfold index. destruct (0 <=? i); [|now constructor]. destruct (nth_error l (Z.to_nat i)) eqn:E; constructor; [|exact Hi].
    eapply nth_error_In; exact E.
  Qed.

  Variable P : platform.
  Variable HR : R PIndex.
  Variable HO : dbg P = true -> R POverflow.
  Variable HD : dbg P = true -> R PDebugAssert.

  Lemma safe_ck_u n z : 0 <= n -> safe (fun v => 0 <= v < 2 ^ n /\ (0 <= z < 2 ^ n -> v = z)) (ck_u P n z).
  Proof.
    intros Hn. assert (0 < 2 ^ n) by (apply Z.pow_pos_nonneg; lia). unfold ck_u. destruct ((0 <=? z) && (z <? 2 ^ n)) eqn:E.
    - constructor. split; [lia|reflexivity].
    - destruct (dbg P) eqn:D; constructor; [now apply HO|]. split; [apply Z.mod_pos_bound; lia|lia].
  Qed.
  Lemma safe_ck_s n z : 1 <= n -> safe (fun v => - 2 ^ (n - 1) <= v < 2 ^ (n - 1) /\ (- 2 ^ (n - 1) <= z < 2 ^ (n - 1) -> v = z)) (ck_s P n z).
  Proof.
    intros Hn. unfold ck_s. destruct ((- 2 ^ (n - 1) <=? z) && (z <? 2 ^ (n - 1))) eqn:E.
    - constructor. split; [lia|reflexivity].
    - destruct (dbg P) eqn:D; constructor; [now apply HO|]. split; [now apply wrap_s_range|lia].
  Qed.
  Lemma safe_ck_usize z : safe (fun _ => True) (ck_usize P z).
  Proof. unfold ck_usize, ck_u. destruct (_ && _); [now constructor|]. destruct (dbg P) eqn:D; constructor; [now apply HO|exact I]. Qed.
  Lemma safe_shl n x s : safe (fun _ => True) (shl_u P n x s).
  Proof. unfold shl_u. destruct (_ && _); [now constructor|]. destruct (dbg P) eqn:D; constructor; [now apply HO|exact I]. Qed.
  Lemma safe_shr n x s : safe (fun _ => True) (shr_u P n x s).
  Proof. unfold shr_u. destruct (_ && _); [now constructor|]. destruct (dbg P) eqn:D; constructor; [now apply HO|exact I]. Qed.
  Lemma safe_dassert b : safe (fun _ => True) (debug_assert P b).
  Proof. unfold debug_assert. destruct b; [now constructor|]. destruct (dbg P) eqn:D; cbn; constructor; [now apply HD|exact I]. Qed.

  (** ** writer.rs *)
  Variable HP : plat_ok P.
  Lemma buffer_size : BUFFER_SIZE P = 32 \/ BUFFER_SIZE P = 64.
  Proof. exact HP. Qed.

  Definition wok (w : bitw) : Prop := 0 <= free_bits w <= BUFFER_SIZE P.

  Ltac any_of l := eapply safe_weaken; [|apply l]; [intros; exact I|..].
  Lemma safe_flush_byte b f : safe (fun _ => True) (flush_byte P b f).
  Proof.
    unfold flush_byte. eapply safe_bind; [apply safe_ck_s; lia|]. intros a _. cbv beta.
    repeat first [ eapply safe_bind; [first [apply safe_shr|apply safe_ck_s; lia|apply safe_write_all]|]; intros ? _; cbv beta
                 | match goal with |- context [if ?b then _ else _] => destruct b end
                 | apply safe_write_all | constructor; exact I ].
  Qed.
  Lemma safe_write_bit_buffer b : safe (fun _ => True) (write_bit_buffer P b).
  Proof.
    unfold write_bit_buffer. destruct (negb _); [|apply safe_write_all]. apply safe_foldM; [|exact I]. intros. apply safe_flush_byte.
  Qed.
  Lemma safe_write_bits w v size : wok w -> 0 <= size <= 32 -> safe wok (write_bits P w v size).
  Proof.
    intros Hw Hs. unfold write_bits. unfold wok in Hw. pose proof buffer_size as B.
    assert (E : wrap_s 8 size = size).
    { unfold wrap_s. change (2 ^ (8 - 1)) with 128. change (2 ^ 8) with 256. rewrite Z.mod_small by lia. lia. }
    cbv zeta. rewrite E. eapply safe_bind; [apply safe_ck_s; lia|]. intros fb [_ Hfb]. change (2 ^ (8 - 1)) with 128 in Hfb.
    specialize (Hfb ltac:(lia)). subst fb. destruct (free_bits w - size <? 0) eqn:N.
    - eapply safe_bind; [apply safe_ck_s; lia|]. intros sh _. eapply safe_bind; [apply safe_shl|]. intros hi _.
      eapply safe_bind; [apply safe_ck_s; lia|]. intros nfb _. eapply safe_bind; [apply safe_shr|]. intros lo _.
      eapply safe_bind; [apply safe_write_bit_buffer|]. intros _ _. eapply safe_bind; [apply safe_ck_s; lia|].
      intros fb [_ Hfb]. change (2 ^ (8 - 1)) with 128 in Hfb. specialize (Hfb ltac:(lia)). subst fb. constructor. unfold wok. cbn [free_bits]. lia.
    - eapply safe_bind; [apply safe_shl|]. intros hi _. constructor. unfold wok. cbn [free_bits]. lia.
  Qed.
  Lemma safe_flush n : forall w, wok w -> BUFFER_SIZE P - free_bits w < 8 * Z.of_nat n -> safe (fun _ => True) (flush_bit_buffer P n w).
  Proof.
    pose proof buffer_size as B. induction n as [|n IH]; intros w Hw Hn; [unfold wok in Hw; lia|]. cbn [flush_bit_buffer]. unfold wok in Hw.
    destruct (free_bits w <=? BUFFER_SIZE P - 8) eqn:E; [|now constructor].
    eapply safe_bind; [apply safe_flush_byte|]. intros _ _. eapply safe_bind; [apply safe_ck_s; lia|]. intros fb [_ Hfb].
    change (2 ^ (8 - 1)) with 128 in Hfb. specialize (Hfb ltac:(lia)). subst fb. apply IH; unfold wok; cbn [free_bits]; lia.
  Qed.
  Lemma safe_finalize w : wok w -> safe wok (finalize_bit_buffer P w).
  Proof.
    intros Hw. pose proof buffer_size as B. unfold finalize_bit_buffer. eapply safe_bind; [apply safe_write_bits; [exact Hw|lia]|].
    intros w1 Hw1. eapply safe_bind; [apply safe_flush; [exact Hw1|unfold wok in Hw1; lia]|]. intros _ _. constructor. unfold wok. cbn [free_bits]. lia.
  Qed.
  Lemma safe_marker m : safe (fun _ => True) (write_marker m).
  Proof. apply safe_write_all. Qed.

  (** Huffman tables: the sizes are at most 16. *)
  Definition tok (t : htab) : Prop := Forall (fun p => 0 <= fst p <= 16) (h_lookup t).

  Lemma safe_create_sizes cl : (length cl <= 16)%nat -> safe (fun sizes => Forall (fun s => 0 <= s <= 16) sizes) (create_sizes cl).
  Proof.
    intros Hl. unfold create_sizes. destruct (_ <=? _)%nat; [|now constructor]. constructor. apply Forall_app. split.
    - apply Forall_concat, Forall_map, Forall_forall. intros [i n] Hin. apply Forall_forall. intros x Hx. apply repeat_spec in Hx. subst x.
      unfold enumerate in Hin. apply in_combine_l in Hin. unfold zrange, zlen in Hin. apply in_map_iff in Hin as (k & <- & Hk). apply in_seq in Hk. lia.
    - apply Forall_forall. intros x Hx. apply repeat_spec in Hx. lia.
  Qed.
  Lemma safe_create_codes_loop sizes : forall c s, safe (fun _ => True) (create_codes_loop P sizes c s).
  Proof.
    induction sizes as [|size rest IH]; intros c s; cbn [create_codes_loop]; [now constructor|]. destruct (size =? 0); [now constructor|].
    eapply safe_bind.
    - instantiate (1 := fun _ => True). destruct (s =? size); [now constructor|]. eapply safe_bind; [apply safe_ck_u; lia|]. intros d _.
      eapply safe_bind; [apply safe_shl|]. intros c' _. now constructor.
    - intros [code cs] _. eapply safe_bind; [apply safe_ck_u; lia|]. intros n _. eapply safe_bind; [apply IH|]. intros codes _. now constructor.
  Qed.
  Lemma Forall_upd {A} (Q : A -> Prop) l x : Forall Q l -> Q x -> forall i, Forall Q (upd l i x).
  Proof.
    intros H Hx. induction H as [|y l Hy Hl IH]; intros [|i]; cbn [upd]; constructor; auto.
  Qed.
  Lemma safe_lookup cl vs : (length cl <= 16)%nat -> safe (Forall (fun p => 0 <= fst p <= 16)) (create_lookup_table P cl vs).
  Proof.
    intros Hl. unfold create_lookup_table. eapply safe_bind; [apply safe_create_sizes; exact Hl|]. intros sizes Hs.
    eapply safe_bind.
    - instantiate (1 := fun _ => True). unfold create_codes. eapply safe_bind; [apply safe_create_codes_loop|]. intros codes _. now constructor.
    - intros codes _. apply safe_foldM.
      + intros lt [i v] _ Hlt. eapply safe_bind; [apply safe_index; exact HR|]. intros s Hin. eapply safe_bind; [apply safe_index; exact HR|].
        intros c _. constructor. apply Forall_upd; [exact Hlt|]. cbn [fst]. rewrite Forall_forall in Hs. now apply Hs.
      + apply Forall_forall. intros x Hx. apply repeat_spec in Hx. subst x. cbn [fst]. lia.
  Qed.
  Lemma safe_get_for_value t v : tok t -> safe (fun p => 0 <= fst p <= 16) (get_for_value P t v).
  Proof.
    intros Ht. unfold get_for_value. eapply safe_bind; [apply safe_index; exact HR|]. intros p Hp. eapply safe_bind; [apply safe_dassert|].
    intros _ _. constructor. unfold tok in Ht. rewrite Forall_forall in Ht. now apply Ht.
  Qed.
  Lemma safe_huffman_encode w v t : wok w -> tok t -> safe wok (huffman_encode P w v t).
  Proof.
    intros Hw Ht. unfold huffman_encode. eapply safe_bind; [apply safe_get_for_value; exact Ht|]. intros [size code] H. cbn [fst] in H.
    apply safe_write_bits; [exact Hw|lia].
  Qed.
  Lemma safe_huffman_encode_value w size sym v t : wok w -> tok t -> 0 <= size <= 16 -> safe wok (huffman_encode_value P w size sym v t).
  Proof.
    intros Hw Ht Hs. unfold huffman_encode_value. eapply safe_bind; [apply safe_get_for_value; exact Ht|]. intros [nb code] H. cbn [fst] in H.
    eapply safe_bind; [apply safe_shl|]. intros hi _. cbv zeta. eapply safe_bind; [apply safe_ck_u; lia|]. intros sz [_ Hsz].
    change (2 ^ 8) with 256 in Hsz. specialize (Hsz ltac:(lia)). subst sz. apply safe_write_bits; [exact Hw|lia].
  Qed.
  Lemma safe_get_code v : safe (fun p => 0 <= fst p <= 16) (get_code P v).
  Proof.
    unfold get_code. eapply safe_bind; [apply safe_ck_s; lia|]. intros a _. eapply safe_bind; [apply safe_ck_s; lia|]. intros b _. cbv zeta.
    eapply safe_bind; [apply safe_ck_s; lia|]. intros m _. constructor. cbn [fst].
    set (u := Z.lor (wrap_u 16 (b * 2)) 1).
    assert (Hu : 0 <= u < 2 ^ 16).
    { unfold u. assert (0 <= wrap_u 16 (b * 2) < 2 ^ 16) by (apply Z.mod_pos_bound; lia). split; [apply Z.lor_nonneg; lia|].
      destruct (Z.eq_dec u 0) as [E|E]; [fold u; rewrite E; lia|]. apply Z.log2_lt_cancel. rewrite Z.log2_lor by lia.
      change (Z.log2 (2 ^ 16)) with 16. change (Z.log2 1) with 0. apply Z.max_lub_lt; [|lia].
      destruct (Z.eq_dec (wrap_u 16 (b * 2)) 0) as [->|]; [cbn; lia|]. apply Z.log2_lt_pow2; lia. }
    assert (H : Z.log2 u <= 15).
    { destruct (Z.eq_dec u 0) as [->|]; [cbn; lia|]. assert (Z.log2 u < 16) by (apply Z.log2_lt_pow2; lia). lia. }
    pose proof (Z.log2_nonneg u). replace (15 - (15 - Z.log2 u)) with (Z.log2 u) by lia. unfold wrap_u. rewrite Z.mod_small by lia. lia.
  Qed.
  Lemma safe_write_dc w v p t : wok w -> tok t -> safe wok (write_dc P w v p t).
  Proof.
    intros Hw Ht. unfold write_dc. eapply safe_bind; [apply safe_ck_s; lia|]. intros d _. eapply safe_bind; [apply safe_get_code|].
    intros [size value] H. cbn [fst] in H. now apply safe_huffman_encode_value.
  Qed.
  Lemma safe_zrl n : forall w zr t, wok w -> tok t -> 0 <= zr < 16 * Z.of_nat n -> safe (fun p => wok (fst p) /\ 0 <= snd p <= 15) (write_zrl P n w zr t).
  Proof.
    induction n as [|n IH]; intros w zr t Hw Ht Hz; [lia|]. cbn [write_zrl]. destruct (15 <? zr) eqn:E.
    - eapply safe_bind; [apply safe_huffman_encode; assumption|]. intros w1 Hw1. apply IH; [exact Hw1|exact Ht|lia].
    - constructor. cbn [fst snd]. split; [exact Hw|lia].
  Qed.
  Lemma safe_ac_loop t : tok t -> forall vals w zr, wok w -> 0 <= zr < 256 -> safe (fun p => wok (fst p)) (write_ac_loop P w vals zr t).
  Proof.
    intros Ht. induction vals as [|v rest IH]; intros w zr Hw Hz; cbn [write_ac_loop]; [now constructor|]. destruct (v =? 0).
    - eapply safe_bind; [apply safe_ck_u; lia|]. intros z [Hz' _]. change (2 ^ 8) with 256 in Hz'. now apply IH.
    - eapply safe_bind; [apply safe_zrl; [exact Hw|exact Ht|lia]|]. intros [w1 z1] [Hw1 Hz1]. cbn [fst snd] in *.
      eapply safe_bind; [apply safe_get_code|]. intros [size value] Hs. cbn [fst] in Hs. cbv zeta.
      eapply safe_bind; [apply safe_huffman_encode_value; assumption|]. intros w2 Hw2. apply IH; [exact Hw2|lia].
  Qed.
  Lemma safe_ac_block w b s e t : wok w -> tok t -> safe wok (write_ac_block P w b s e t).
  Proof.
    intros Hw Ht. unfold write_ac_block. destruct (_ && _); [|now constructor].
    eapply safe_bind; [apply safe_ac_loop; [exact Ht|exact Hw|lia]|]. intros [w1 z1] Hw1. cbn [fst] in Hw1.
    destruct (0 <? z1); [now apply safe_huffman_encode|now constructor].
  Qed.
  Lemma safe_block w b p d a : wok w -> tok d -> tok a -> safe wok (write_block P w b p d a).
  Proof.
    intros Hw Hd Ha. unfold write_block. eapply safe_bind; [apply safe_write_dc; assumption|]. intros w1 Hw1. now apply safe_ac_block.
  Qed.
End Safe.
