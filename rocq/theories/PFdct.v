(** The forward DCT: no overflow, no truncation; the unbounded-integer function it computes. *)
From Verif Require Export PExec MFdct.
From Coq Require Import ZifyBool ZifyNat.
Local Ltac Zify.zify_post_hook ::= Z.div_mod_to_equations.

(** The even and odd part of the integer DCT ("islow"), over unbounded integers, before descaling:
    o0, o4 are plain sums; the others carry a factor 2^13. *)
Record dct1 := { u0 : Z; u1 : Z; u2 : Z; u3 : Z; u4 : Z; u5 : Z; u6 : Z; u7 : Z }.
Definition dct1d (d0 d1 d2 d3 d4 d5 d6 d7 : Z) : dct1 :=
  {| u0 := d0 + d1 + d2 + d3 + d4 + d5 + d6 + d7;
     u4 := d0 - d1 - d2 + d3 + d4 - d5 - d6 + d7;
     u2 := 10703 * d0 + 4433 * d1 - 4433 * d2 - 10703 * d3 - 10703 * d4 - 4433 * d5 + 4433 * d6 + 10703 * d7;
     u6 := 4433 * d0 - 10704 * d1 + 10704 * d2 - 4433 * d3 - 4433 * d4 + 10704 * d5 - 10704 * d6 + 4433 * d7;
     u1 := 11363 * d0 + 9633 * d1 + 6437 * d2 + 2260 * d3 - 2260 * d4 - 6437 * d5 - 9633 * d6 - 11363 * d7;
     u3 := 9633 * d0 - 2259 * d1 - 11362 * d2 - 6436 * d3 + 6436 * d4 + 11362 * d5 + 2259 * d6 - 9633 * d7;
     u5 := 6437 * d0 - 11362 * d1 + 2261 * d2 + 9633 * d3 - 9633 * d4 - 2261 * d5 + 11362 * d6 - 6437 * d7;
     u7 := 2260 * d0 - 6436 * d1 + 9633 * d2 - 11363 * d3 + 11363 * d4 - 9633 * d5 + 6436 * d6 - 2260 * d7 |}.

(** Rounded division by 2^n. *)
Definition rdiv (x n : Z) : Z := (x + 2 ^ (n - 1)) / 2 ^ n.

Definition row_pure (d0 d1 d2 d3 d4 d5 d6 d7 : Z) : list Z :=
  let u := dct1d d0 d1 d2 d3 d4 d5 d6 d7 in
  [4 * u0 u; rdiv (u1 u) 11; rdiv (u2 u) 11; rdiv (u3 u) 11; 4 * u4 u; rdiv (u5 u) 11;
   rdiv (u6 u) 11; rdiv (u7 u) 11].
Definition col_pure (d0 d1 d2 d3 d4 d5 d6 d7 : Z) : list Z :=
  let u := dct1d d0 d1 d2 d3 d4 d5 d6 d7 in
  [rdiv (u0 u) 2; rdiv (u1 u) 15; rdiv (u2 u) 15; rdiv (u3 u) 15; rdiv (u4 u) 2; rdiv (u5 u) 15;
   rdiv (u6 u) 15; rdiv (u7 u) 15].

Lemma fdct_row_pure P d0 d1 d2 d3 d4 d5 d6 d7 :
  -128 <= d0 <= 127 -> -128 <= d1 <= 127 -> -128 <= d2 <= 127 -> -128 <= d3 <= 127 ->
  -128 <= d4 <= 127 -> -128 <= d5 <= 127 -> -128 <= d6 <= 127 -> -128 <= d7 <= 127 ->
  fdct_row P d0 d1 d2 d3 d4 d5 d6 d7 = Ret (row_pure d0 d1 d2 d3 d4 d5 d6 d7).
Proof.
  intros. unfold fdct_row, descale, add32, sub32, mul32, CONST_BITS, PASS1_BITS.
  change (13 - 2) with 11.
  change (2 ^ (11 - 1)) with 1024. change (2 ^ 11) with 2048. change (2 ^ 2) with 4.
  unfold FIX_0_298631336, FIX_0_390180644, FIX_0_541196100, FIX_0_765366865, FIX_0_899976223,
    FIX_1_175875602, FIX_1_501321110, FIX_1_847759065, FIX_1_961570560, FIX_2_053119869,
    FIX_2_562915447, FIX_3_072711026.
  repeat (rewrite ck_s_ret by (change (2 ^ (32 - 1)) with 2147483648; lia); cbn [bind]).
  rewrite !wrap_s_id by (try change (2 ^ (32 - 1)) with 2147483648; lia).
  unfold row_pure, dct1d, rdiv. cbn [u0 u1 u2 u3 u4 u5 u6 u7].
  change (2 ^ (11 - 1)) with 1024. change (2 ^ 11) with 2048.
  apply f_equal. repeat (apply f_equal2; [lia|]). reflexivity.
Qed.

(** Pass 2: any input that pass 1 can produce. *)
Lemma fdct_col_pure P d0 d1 d2 d3 d4 d5 d6 d7 :
  -4096 <= d0 <= 4096 -> -4096 <= d1 <= 4096 -> -4096 <= d2 <= 4096 -> -4096 <= d3 <= 4096 ->
  -4096 <= d4 <= 4096 -> -4096 <= d5 <= 4096 -> -4096 <= d6 <= 4096 -> -4096 <= d7 <= 4096 ->
  fdct_col P d0 d1 d2 d3 d4 d5 d6 d7 = Ret (col_pure d0 d1 d2 d3 d4 d5 d6 d7).
Proof.
  intros. unfold fdct_col, descale, add32, sub32, mul32, into_el, CONST_BITS, PASS1_BITS.
  change (13 + 2) with 15. change (2 - 1) with 1.
  change (2 ^ (15 - 1)) with 16384. change (2 ^ 15) with 32768. change (2 ^ 2) with 4. change (2 ^ 1) with 2.
  unfold FIX_0_298631336, FIX_0_390180644, FIX_0_541196100, FIX_0_765366865, FIX_0_899976223,
    FIX_1_175875602, FIX_1_501321110, FIX_1_847759065, FIX_1_961570560, FIX_2_053119869,
    FIX_2_562915447, FIX_3_072711026.
  repeat (rewrite ck_s_ret by (change (2 ^ (32 - 1)) with 2147483648; lia); cbn [bind]).
  rewrite !wrap_s_id by (try change (2 ^ (16 - 1)) with 32768; lia).
  unfold col_pure, dct1d, rdiv. cbn [u0 u1 u2 u3 u4 u5 u6 u7].
  change (2 ^ (15 - 1)) with 16384. change (2 ^ 15) with 32768. change (2 ^ 2) with 4.
  change (2 ^ (2 - 1)) with 2.
  apply f_equal. repeat (apply f_equal2; [lia|]). reflexivity.
Qed.

(** Output bounds of the two passes. *)
Ltac forall_lia := repeat (apply Forall_cons; [lia|]); apply Forall_nil.

Lemma row_pure_bound d0 d1 d2 d3 d4 d5 d6 d7 :
  -128 <= d0 <= 127 -> -128 <= d1 <= 127 -> -128 <= d2 <= 127 -> -128 <= d3 <= 127 ->
  -128 <= d4 <= 127 -> -128 <= d5 <= 127 -> -128 <= d6 <= 127 -> -128 <= d7 <= 127 ->
  Forall (fun v => -4080 <= v <= 4080) (tl (row_pure d0 d1 d2 d3 d4 d5 d6 d7)) /\
  -4096 <= hd 0 (row_pure d0 d1 d2 d3 d4 d5 d6 d7) <= 4064.
Proof.
  intros. unfold row_pure, dct1d, rdiv. cbn [u0 u1 u2 u3 u4 u5 u6 u7 hd tl].
  change (2 ^ (11 - 1)) with 1024. change (2 ^ 11) with 2048.
  split; [|lia]. forall_lia.
Qed.

Lemma col_pure_bound lo hi d0 d1 d2 d3 d4 d5 d6 d7 :
  (lo = -4096 /\ hi = 4064) \/ (lo = -4080 /\ hi = 4080) ->
  lo <= d0 <= hi -> lo <= d1 <= hi -> lo <= d2 <= hi -> lo <= d3 <= hi ->
  lo <= d4 <= hi -> lo <= d5 <= hi -> lo <= d6 <= hi -> lo <= d7 <= hi ->
  Forall (fun v => -8160 <= v <= 8160) (tl (col_pure d0 d1 d2 d3 d4 d5 d6 d7)) /\
  (2 * lo <= hd 0 (col_pure d0 d1 d2 d3 d4 d5 d6 d7) <= 2 * hi).
Proof.
  intros H0. intros. unfold col_pure, dct1d, rdiv. cbn [u0 u1 u2 u3 u4 u5 u6 u7 hd tl].
  change (2 ^ (15 - 1)) with 16384. change (2 ^ 15) with 32768. change (2 ^ 2) with 4.
  change (2 ^ (2 - 1)) with 2.
  split; [|lia]. destruct H0 as [[-> ->]|[-> ->]]; forall_lia.
Qed.

(** ** The whole transform *)
Definition rows_pure (b : list Z) : list (list Z) :=
  map (fun y => let o := y * 8 in
         row_pure (zn b (o + 0)) (zn b (o + 1)) (zn b (o + 2)) (zn b (o + 3))
                  (zn b (o + 4)) (zn b (o + 5)) (zn b (o + 6)) (zn b (o + 7))) (zrange 8).
Definition cols_pure (d : list Z) : list (list Z) :=
  map (fun x => col_pure (zn d (8 * 0 + x)) (zn d (8 * 1 + x)) (zn d (8 * 2 + x)) (zn d (8 * 3 + x))
                         (zn d (8 * 4 + x)) (zn d (8 * 5 + x)) (zn d (8 * 6 + x)) (zn d (8 * 7 + x)))
      (zrange 8).
Definition fdct_pure (b : list Z) : list Z :=
  let cols := cols_pure (concat (rows_pure b)) in
  map (fun i => zn (nth (Z.to_nat (i mod 8)) cols []) (i / 8)) (zrange 64).

Definition samples_ok (b : list Z) : Prop := length b = 64%nat /\ Forall (fun v => -128 <= v <= 127) b.

Lemma zn_in_range (Q : Z -> Prop) b n : Forall Q b -> (0 <= n < zlen b) -> Q (zn b n).
Proof.
  intros HF Hn. unfold zn. rewrite Forall_forall in HF. apply HF, nth_In. unfold zlen in Hn. lia.
Qed.

Lemma mapM_ret {A X} (f : X -> prog A) (g : X -> A) l :
  (forall x, In x l -> f x = Ret (g x)) -> mapM f l = Ret (map g l).
Proof.
  induction l as [|x l IH]; intros H; cbn [mapM map]; [reflexivity|].
  rewrite (H x) by now left. cbn [bind]. rewrite IH by (intros; apply H; now right). reflexivity.
Qed.

Lemma nth_concat_const {A} (d : A) n : forall ll y x,
  Forall (fun l => length l = n) ll -> (x < n)%nat -> (y < length ll)%nat ->
  nth (y * n + x) (concat ll) d = nth x (nth y ll []) d.
Proof.
  induction ll as [|l ll IH]; intros y x HF Hx Hy; [cbn in Hy; lia|].
  inversion HF as [|? ? Hl HF']; subst. cbn [concat]. destruct y as [|y].
  - cbn [Nat.mul Nat.add nth]. now rewrite app_nth1.
  - cbn [nth]. rewrite app_nth2 by (cbn [Nat.mul]; lia).
    replace (S y * length l + x - length l)%nat with (y * length l + x)%nat by (cbn [Nat.mul]; lia).
    apply IH; auto. cbn [length] in Hy. lia.
Qed.

(** Element x of row y of pass 1 *)
Lemma rows_pure_nth b y x : 0 <= y < 8 -> 0 <= x < 8 ->
  zn (concat (rows_pure b)) (8 * y + x) =
  zn (row_pure (zn b (y * 8 + 0)) (zn b (y * 8 + 1)) (zn b (y * 8 + 2)) (zn b (y * 8 + 3))
               (zn b (y * 8 + 4)) (zn b (y * 8 + 5)) (zn b (y * 8 + 6)) (zn b (y * 8 + 7))) x.
Proof.
  intros Hy Hx. unfold zn at 1.
  replace (Z.to_nat (8 * y + x)) with (Z.to_nat y * 8 + Z.to_nat x)%nat by lia.
  rewrite nth_concat_const.
  - unfold zn at 1. f_equal. unfold rows_pure.
    erewrite nth_error_nth; [reflexivity|].
    rewrite (map_nth_error _ _ _ (zrange_nth 8 (Z.to_nat y) ltac:(lia))).
    now rewrite Z2Nat.id by lia.
  - unfold rows_pure. apply Forall_forall. intros l Hl. apply in_map_iff in Hl as (k & <- & _). reflexivity.
  - lia.
  - unfold rows_pure. rewrite map_length, zrange_length. lia.
Qed.

Definition lo_of (x : Z) : Z := if x =? 0 then -4096 else -4080.
Definition hi_of (x : Z) : Z := if x =? 0 then 4064 else 4080.

Lemma pass1_bound b y x : samples_ok b -> 0 <= y < 8 -> 0 <= x < 8 ->
  lo_of x <= zn (concat (rows_pure b)) (8 * y + x) <= hi_of x.
Proof.
  intros (Hl & HF) Hy Hx. rewrite rows_pure_nth by assumption.
  assert (Hr : forall i, 0 <= i < 8 -> -128 <= zn b (y * 8 + i) <= 127).
  { intros i Hi. apply (zn_in_range (fun v => -128 <= v <= 127)); [assumption|]. unfold zlen. lia. }
  destruct (row_pure_bound _ _ _ _ _ _ _ _ (Hr 0 ltac:(lia)) (Hr 1 ltac:(lia)) (Hr 2 ltac:(lia))
    (Hr 3 ltac:(lia)) (Hr 4 ltac:(lia)) (Hr 5 ltac:(lia)) (Hr 6 ltac:(lia)) (Hr 7 ltac:(lia))) as [Ht Hh].
  set (r := row_pure _ _ _ _ _ _ _ _) in *.
  assert (Hlen : length r = 8%nat) by reflexivity.
  unfold lo_of, hi_of. destruct (x =? 0) eqn:E.
  - replace x with 0 by lia. destruct r; [discriminate|exact Hh].
  - destruct r as [|r0 r]; [discriminate|]. cbn [tl] in Ht. unfold zn.
    replace (Z.to_nat x) with (S (Z.to_nat x - 1)) by lia. cbn [nth].
    rewrite Forall_forall in Ht. apply Ht. apply nth_In. cbn [length] in Hlen. lia.
Qed.

Lemma fdct_ret P b : samples_ok b -> fdct P b = Ret (fdct_pure b).
Proof.
  intros Hs. unfold fdct.
  rewrite (mapM_ret _ (fun y => let o := y * 8 in
         row_pure (zn b (o + 0)) (zn b (o + 1)) (zn b (o + 2)) (zn b (o + 3))
                  (zn b (o + 4)) (zn b (o + 5)) (zn b (o + 6)) (zn b (o + 7)))).
  2:{ intros y Hy. apply in_zrange in Hy. destruct Hs as [Hl HF]. cbv zeta.
      apply fdct_row_pure; apply (zn_in_range (fun v => -128 <= v <= 127)); auto; unfold zlen; lia. }
  cbn [bind]. fold (rows_pure b).
  rewrite (mapM_ret _ (fun x => let d := concat (rows_pure b) in
           col_pure (zn d (8 * 0 + x)) (zn d (8 * 1 + x)) (zn d (8 * 2 + x)) (zn d (8 * 3 + x))
                         (zn d (8 * 4 + x)) (zn d (8 * 5 + x)) (zn d (8 * 6 + x)) (zn d (8 * 7 + x)))).
  2:{ intros x Hx. apply in_zrange in Hx. cbv zeta.
      assert (Hb : forall y, 0 <= y < 8 -> -4096 <= zn (concat (rows_pure b)) (8 * y + x) <= 4096).
      { intros y Hy. pose proof (pass1_bound b y x Hs Hy Hx) as H. unfold lo_of, hi_of in H.
        destruct (x =? 0); lia. }
      apply fdct_col_pure; apply Hb; lia. }
  reflexivity.
Qed.

Lemma fdct_pure_length b : length (fdct_pure b) = 64%nat.
Proof. unfold fdct_pure. now rewrite map_length, zrange_length. Qed.

Lemma fdct_pure_nth b i : 0 <= i < 64 ->
  zn (fdct_pure b) i =
  (let d := concat (rows_pure b) in let x := i mod 8 in
   zn (col_pure (zn d (8 * 0 + x)) (zn d (8 * 1 + x)) (zn d (8 * 2 + x)) (zn d (8 * 3 + x))
             (zn d (8 * 4 + x)) (zn d (8 * 5 + x)) (zn d (8 * 6 + x)) (zn d (8 * 7 + x))) (i / 8)).
Proof.
  intros Hi. unfold fdct_pure, zn at 1.
  erewrite nth_error_nth; [reflexivity|].
  rewrite (map_nth_error _ _ _ (zrange_nth 64 (Z.to_nat i) ltac:(lia))).
  rewrite Z2Nat.id by lia. f_equal. cbv zeta. f_equal.
  assert (Hx : 0 <= i mod 8 < 8) by lia. set (x := i mod 8) in *. clearbody x.
  unfold cols_pure. erewrite nth_error_nth; [reflexivity|].
  rewrite (map_nth_error _ _ _ (zrange_nth 8 (Z.to_nat x) ltac:(lia))).
  now rewrite Z2Nat.id by lia.
Qed.

Lemma fdct_bound b i : samples_ok b -> 0 <= i < 64 ->
  if i =? 0 then -8192 <= zn (fdct_pure b) i <= 8128 else -8160 <= zn (fdct_pure b) i <= 8160.
Proof.
  intros Hs Hi. rewrite fdct_pure_nth by assumption. cbv zeta.
  assert (Hx : 0 <= i mod 8 < 8) by lia.
  destruct (col_pure_bound (lo_of (i mod 8)) (hi_of (i mod 8))
     (zn (concat (rows_pure b)) (8 * 0 + i mod 8)) (zn (concat (rows_pure b)) (8 * 1 + i mod 8))
     (zn (concat (rows_pure b)) (8 * 2 + i mod 8)) (zn (concat (rows_pure b)) (8 * 3 + i mod 8))
     (zn (concat (rows_pure b)) (8 * 4 + i mod 8)) (zn (concat (rows_pure b)) (8 * 5 + i mod 8))
     (zn (concat (rows_pure b)) (8 * 6 + i mod 8)) (zn (concat (rows_pure b)) (8 * 7 + i mod 8)))
    as [Ht Hh]; try (apply pass1_bound; [assumption|lia|lia]).
  { unfold lo_of, hi_of. destruct (i mod 8 =? 0); lia. }
  set (r := col_pure _ _ _ _ _ _ _ _) in *.
  assert (Hlen : length r = 8%nat) by reflexivity.
  clearbody r.
  destruct r as [|r0 r]; [discriminate|]. cbn [tl hd length] in *.
  destruct (Z.eq_dec (i / 8) 0) as [E|E].
  - rewrite E. unfold zn. cbn [Z.to_nat nth]. unfold lo_of, hi_of in Hh.
    destruct (i =? 0) eqn:E0.
    + replace (i mod 8 =? 0) with true in Hh by lia. lia.
    + replace (i mod 8 =? 0) with false in Hh by lia. lia.
  - replace (i =? 0) with false by lia. unfold zn.
    replace (Z.to_nat (i / 8)) with (S (Z.to_nat (i / 8) - 1)) by lia. cbn [nth].
    rewrite Forall_forall in Ht. apply Ht. apply nth_In. lia.
Qed.
