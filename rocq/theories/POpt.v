(** Optimized Huffman tables in a whole file: every symbol that is written was counted (C02). *)
From Verif Require Export PEncode PLimit.
From Verif Require Import T81.
From Coq Require Import ZifyBool ZifyNat Permutation.

Lemma exec_after0 {A B} (m : prog A) a (f : A -> prog B) r : emits m [] a -> exec (f a) = r -> exec (bind m f) = r.
Proof. intros H1 H2. rewrite exec_bind, H1, H2. destruct r; reflexivity. Qed.
Lemma exec_bind_panic {A B} (m : prog A) (f : A -> prog B) k : exec m = ([], Panicked k) -> exec (bind m f) = ([], Panicked k).
Proof. intros H. rewrite exec_bind, H. reflexivity. Qed.
Lemma panic_after {A B} (m : prog A) o a (f : A -> prog B) k : emits m o a ->
  (exists b, exec (f a) = (b, Panicked k)) -> exists b, exec (bind m f) = (b, Panicked k).
Proof. intros H1 [b H2]. exists (o ++ b). rewrite exec_bind, H1, H2. reflexivity. Qed.

(** ** Counting *)
Definition bump (f : list Z) (s : Z) : list Z := upd f (Z.to_nat s) (zn f s + 1).
Definition tally (f : list Z) (l : list Z) : list Z := fold_left bump l f.
Definition tot (f : list Z) : Z := fold_right Z.add 0 f.
Record hok (f : list Z) : Prop := { ho_len : length f = 257%nat; ho_nn : forall s, 0 <= nth s f 0 }.
Definition sym (s : Z) : Prop := 0 <= s < 256.

Lemma tot_upd : forall f k v, (k < length f)%nat -> tot (upd f k v) = tot f + v - nth k f 0.
Proof.
  unfold tot. induction f as [|x f IH]; intros [|k] v Hk; cbn [length] in Hk; try lia; cbn [upd fold_right nth]; [lia|].
  rewrite IH by lia. lia.
Qed.
Lemma tot_nonneg f : (forall s, 0 <= nth s f 0) -> 0 <= tot f.
Proof.
  unfold tot. induction f as [|x f IH]; intros H; cbn [fold_right]; [lia|]. pose proof (H 0%nat) as H0. cbn [nth] in H0.
  assert (0 <= fold_right Z.add 0 f) by (apply IH; intros s; exact (H (S s))). lia.
Qed.
Lemma nth_tot f k : (forall s, 0 <= nth s f 0) -> nth k f 0 <= tot f.
Proof.
  unfold tot. revert k. induction f as [|x f IH]; intros [|k] H; cbn [fold_right nth]; try lia.
  - assert (0 <= fold_right Z.add 0 f) by (apply tot_nonneg; intros s; exact (H (S s))). lia.
  - pose proof (H 0%nat) as H0. cbn [nth] in H0.
    assert (nth k f 0 <= fold_right Z.add 0 f) by (apply IH; intros s; exact (H (S s))). lia.
Qed.

Lemma bump_hok f s : hok f -> sym s -> hok (bump f s).
Proof.
  intros [Hl Hn] Hs. unfold bump. split; [now rewrite upd_length|]. intros k. rewrite nth_upd.
  destruct (_ && _); [unfold zn; specialize (Hn (Z.to_nat s)); lia|apply Hn].
Qed.
Lemma bump_tot f s : hok f -> sym s -> tot (bump f s) = tot f + 1.
Proof. intros [Hl Hn] Hs. unfold bump, sym in *. rewrite tot_upd by lia. unfold zn. lia. Qed.
Lemma nth_bump f s k : hok f -> sym s -> nth k (bump f s) 0 = nth k f 0 + (if (k =? Z.to_nat s)%nat then 1 else 0).
Proof.
  intros [Hl Hn] Hs. unfold bump, sym in *. rewrite nth_upd. replace (Z.to_nat s <? length f)%nat with true by lia.
  rewrite Nat.eqb_sym. destruct (k =? Z.to_nat s)%nat eqn:E; cbn [andb]; [|lia]. unfold zn. replace (Z.to_nat s) with k by lia. lia.
Qed.

Lemma tally_app f a b : tally f (a ++ b) = tally (tally f a) b.
Proof. apply fold_left_app. Qed.
Lemma tally_ok : forall l f, hok f -> Forall sym l -> hok (tally f l) /\ tot (tally f l) = tot f + Z.of_nat (length l).
Proof.
  induction l as [|s l IH]; intros f Hf Hl; [cbn [tally fold_left length]; split; [exact Hf|lia]|].
  inversion Hl as [|? ? Hs Hl']; subst. cbn [tally fold_left length].
  destruct (IH (bump f s) (bump_hok f s Hf Hs) Hl') as [H1 H2]. fold (tally (bump f s) l).
  split; [exact H1|]. rewrite H2, bump_tot by assumption. lia.
Qed.
Lemma tally_mono : forall l f k, hok f -> Forall sym l -> nth k f 0 <= nth k (tally f l) 0.
Proof.
  induction l as [|s l IH]; intros f k Hf Hl; [cbn; lia|].
  inversion Hl as [|? ? Hs Hl']; subst. cbn [tally fold_left]. fold (tally (bump f s) l).
  pose proof (IH (bump f s) k (bump_hok f s Hf Hs) Hl') as H. rewrite nth_bump in H by assumption. destruct (_ =? _)%nat; lia.
Qed.
Lemma tally_in : forall l f s, hok f -> Forall sym l -> In s l -> 0 < zn (tally f l) s.
Proof.
  induction l as [|x l IH]; intros f s Hf Hl Hi; [destruct Hi|].
  inversion Hl as [|? ? Hs Hl']; subst. cbn [tally fold_left]. fold (tally (bump f x) l).
  destruct Hi as [->|Hi]; [|apply IH; [now apply bump_hok|assumption|assumption]].
  unfold zn. pose proof (tally_mono l (bump f s) (Z.to_nat s) (bump_hok f s Hf Hs) Hl') as H.
  rewrite nth_bump, Nat.eqb_refl in H by assumption. pose proof (ho_nn _ Hf (Z.to_nat s)). lia.
Qed.
Lemma tally_pos : forall l f k, hok f -> Forall sym l -> 0 < nth k (tally f l) 0 -> 0 < nth k f 0 \/ In (Z.of_nat k) l.
Proof.
  induction l as [|x l IH]; intros f k Hf Hl Hp; [left; exact Hp|].
  inversion Hl as [|? ? Hs Hl']; subst. cbn [tally fold_left] in Hp. fold (tally (bump f x) l) in Hp.
  apply IH in Hp; [|now apply bump_hok|assumption]. destruct Hp as [Hp|Hp]; [|right; now right].
  rewrite nth_bump in Hp by assumption. destruct (k =? Z.to_nat x)%nat eqn:E; [|left; lia].
  right. left. unfold sym in Hs. lia.
Qed.
Lemma tally_reserved : forall l f, hok f -> Forall sym l -> nth 256 (tally f l) 0 = nth 256 f 0.
Proof.
  induction l as [|x l IH]; intros f Hf Hl; [reflexivity|].
  inversion Hl as [|? ? Hs Hl']; subst. cbn [tally fold_left]. fold (tally (bump f x) l).
  rewrite IH by (assumption || now apply bump_hok). rewrite nth_bump by assumption. unfold sym in Hs.
  replace (256 =? Z.to_nat x)%nat with false by lia. lia.
Qed.

(** [m] counts the symbols [l]. *)
Definition counts (m : list Z -> prog (list Z)) (l : list Z) : Prop :=
  Forall sym l /\ forall f, hok f -> tot f + Z.of_nat (length l) < 2 ^ 32 -> emits (m f) [] (tally f l).

Lemma counts_ret : counts (fun f => Ret f) [].
Proof. split; [constructor|]. intros; apply emits_ret. Qed.
Lemma counts_inc P s : sym s -> counts (fun f => inc_freq P f s) [s].
Proof.
  intros Hs. split; [constructor; [exact Hs|constructor]|]. intros f Hf Ht. unfold inc_freq.
  assert (Hi : index f s = Ret (zn f s)).
  { unfold sym in Hs. apply index_nth; [lia|]. rewrite (nth_error_nth' f 0) by (rewrite (ho_len _ Hf); lia). reflexivity. }
  rewrite Hi. cbn [bind].
  pose proof (nth_tot f (Z.to_nat s) (ho_nn _ Hf)). pose proof (ho_nn _ Hf (Z.to_nat s)). cbn [length] in Ht.
  rewrite ck_u_ret by (unfold zn; lia). apply emits_ret.
Qed.
Lemma counts_bind m1 m2 l1 l2 : counts m1 l1 -> counts m2 l2 -> counts (fun f => bind (m1 f) m2) (l1 ++ l2).
Proof.
  intros [S1 H1] [S2 H2]. split; [now apply Forall_app|]. intros f Hf Ht. rewrite app_length in Ht.
  destruct (tally_ok l1 f Hf S1) as [T1 T2].
  eapply emits_bind0; [apply H1; (assumption || lia)|]. rewrite tally_app. apply H2; (assumption || lia).
Qed.
Lemma counts_ext m m' l : (forall f, exec (m' f) = exec (m f)) -> counts m l -> counts m' l.
Proof. intros E [S H]. split; [exact S|]. intros f Hf Ht. unfold emits. rewrite E. now apply H. Qed.
Lemma counts_fold {X} (m : list Z -> X -> prog (list Z)) (g : X -> list Z) xs :
  (forall x, In x xs -> counts (fun f => m f x) (g x)) -> counts (fun f => foldM m xs f) (flat_map g xs).
Proof.
  induction xs as [|x xs IH]; intros H; cbn [foldM flat_map]; [apply counts_ret|].
  apply (counts_bind (fun f => m f x) (fun f => foldM m xs f)); [apply H; now left|apply IH; intros; apply H; now right].
Qed.

(** ** Sizes *)
Lemma num_bits_loop_spec : forall fuel v n, 0 <= v < 2 ^ Z.of_nat fuel ->
  num_bits_loop fuel v n = n + (if v =? 0 then 0 else Z.log2 v + 1).
Proof.
  induction fuel as [|fuel IH]; intros v n Hv; cbn [num_bits_loop].
  - cbn in Hv. replace (v =? 0) with true by lia. lia.
  - destruct (0 <? v) eqn:E; [|replace (v =? 0) with true by lia; lia].
    rewrite IH.
    2:{ rewrite Nat2Z.inj_succ, Z.pow_succ_r in Hv by lia. split; [apply Z.div_pos; lia|apply Z.div_lt_upper_bound; lia]. }
    replace (v =? 0) with false by lia. destruct (v / 2 =? 0) eqn:E2.
    + assert (v = 1).
      { pose proof (Z.div_mod v 2 ltac:(lia)). pose proof (Z.mod_pos_bound v 2 ltac:(lia)). lia. }
      subst. change (Z.log2 1) with 0. lia.
    + assert (El : Z.log2 (Z.shiftr v 1) = Z.max 0 (Z.log2 v - 1)) by (apply Z.log2_shiftr; lia).
      rewrite Z.shiftr_div_pow2 in El by lia. change (2 ^ 1) with 2 in El.
      assert (Z.log2 2 <= Z.log2 v).
      { apply Z.log2_le_mono. pose proof (Z.div_mod v 2 ltac:(lia)). pose proof (Z.mod_pos_bound v 2 ltac:(lia)). lia. }
      change (Z.log2 2) with 1 in *. lia.
Qed.

Lemma get_num_bits_ret P v : Z.abs v < 2 ^ 15 -> get_num_bits P v = Ret (nbits v).
Proof.
  intros Hv. unfold get_num_bits.
  assert (E : (if v <? 0 then ck_s P 16 (- v) else Ret v) = Ret (Z.abs v)).
  { destruct (v <? 0) eqn:E; [rewrite ck_s_ret by lia|]; f_equal; lia. }
  rewrite E. cbn [bind]. rewrite num_bits_loop_spec by (change (2 ^ Z.of_nat 16) with (2 * 2 ^ 15); lia).
  unfold nbits. replace (Z.abs v =? 0) with (v =? 0) by lia. reflexivity.
Qed.

(** ** DC statistics *)
Fixpoint dc_syms (bs : list (list Z)) (prev : Z) : list Z :=
  match bs with
  | [] => []
  | b :: r => nbits (zn b 0 - prev) :: dc_syms r (zn b 0)
  end.
Lemma dc_syms_bound : forall bs prev, Forall block_ok bs -> -1024 <= prev <= 1023 -> Forall (fun s => 0 <= s <= 11) (dc_syms bs prev).
Proof.
  induction bs as [|b bs IH]; intros prev Hb Hp; cbn [dc_syms]; [constructor|]. inversion Hb as [|? ? Hb1 Hb2]; subst.
  constructor; [|apply IH; [assumption|apply Hb1]]. apply (nbits_bound _ 11); [lia|]. now apply block_ok_dcdiff.
Qed.
Lemma dc_syms_length bs prev : length (dc_syms bs prev) = length bs.
Proof. revert prev. induction bs as [|b bs IH]; intros prev; cbn [dc_syms length]; [reflexivity|]. now rewrite IH. Qed.

Lemma count_dc_ok P : forall bs prev, Forall block_ok bs -> -1024 <= prev <= 1023 ->
  counts (fun f => count_dc P bs prev f) (dc_syms bs prev).
Proof.
  induction bs as [|b bs IH]; intros prev Hb Hp; cbn [count_dc dc_syms]; [apply counts_ret|].
  inversion Hb as [|? ? Hb1 Hb2]; subst. pose proof (block_ok_dcdiff b prev Hb1 Hp) as Hd.
  pose proof (nbits_bound _ 11 ltac:(lia) Hd) as Hn.
  eapply counts_ext.
  2:{ apply (counts_bind (fun f => inc_freq P f (nbits (zn b 0 - prev))) (fun f => count_dc P bs (zn b 0) f) [nbits (zn b 0 - prev)]);
      [apply counts_inc; unfold sym; lia|apply IH; [assumption|apply Hb1]]. }
  intros f. rewrite ck_s_ret by lia. cbn [bind]. rewrite get_num_bits_ret by lia. reflexivity.
Qed.

(** ** AC statistics *)
Lemma count_zrl_ok P : forall fuel zr, 0 <= zr < 16 * Z.of_nat fuel ->
  forall (k : list Z -> Z -> prog (list Z)) l, counts (fun f => k f (zr mod 16)) l ->
  counts (fun f => let* '(f, z) := count_zrl P fuel zr f in k f z) (repeat 0xF0 (Z.to_nat (zr / 16)) ++ l).
Proof.
  induction fuel as [|fuel IH]; intros zr Hzr k l Hk; [lia|]. cbn [count_zrl].
  destruct (15 <? zr) eqn:E.
  - replace (zr / 16) with (1 + (zr - 16) / 16).
    2:{ replace zr with (zr - 16 + 1 * 16) at 2 by lia. rewrite Z.div_add by lia. lia. }
    assert (0 <= (zr - 16) / 16) by (apply Z.div_pos; lia).
    replace (Z.to_nat (1 + (zr - 16) / 16)) with (S (Z.to_nat ((zr - 16) / 16))) by lia. cbn [repeat app].
    eapply counts_ext.
    2:{ apply (counts_bind (fun f => inc_freq P f 0xF0) (fun f => let* '(f, z) := count_zrl P fuel (zr - 16) f in k f z) [240]);
        [apply counts_inc; unfold sym; lia|]. apply IH; [lia|].
        replace ((zr - 16) mod 16) with (zr mod 16); [exact Hk|].
        replace zr with (zr - 16 + 1 * 16) at 1 by lia. apply Z.mod_add. lia. }
    intros f. cbv beta. apply bind_assoc.
  - rewrite Z.div_small by lia. cbn [Z.to_nat repeat app bind]. rewrite Z.mod_small in Hk by lia. exact Hk.
Qed.

Lemma count_ac_loop_ok P : forall vals zr, Forall (fun v => Z.abs v < 2 ^ 10) vals -> 0 <= zr -> zr + Z.of_nat (length vals) < 256 ->
  counts (fun f => let* '(f, z) := count_ac_loop P vals zr f in if 0 <? z then inc_freq P f 0 else Ret f) (ac_syms vals zr).
Proof.
  induction vals as [|v vals IH]; intros zr Hv Hz Hl; cbn [count_ac_loop ac_syms].
  - cbn [bind]. destruct (0 <? zr); [apply counts_inc; unfold sym; lia|apply counts_ret].
  - inversion Hv as [|? ? Hv1 Hv2]; subst. cbn [length] in Hl. destruct (v =? 0) eqn:E.
    + eapply counts_ext; [|apply (IH (zr + 1)); [assumption|lia|lia]].
      intros f. rewrite ck_u_ret by lia. reflexivity.
    + eapply counts_ext.
      2:{ apply (count_zrl_ok P 17 zr ltac:(lia) (fun f z =>
            let* nb := get_num_bits P v in
            let* f := inc_freq P f (Z.lor (wrap_u 8 (z * 2 ^ 4)) nb) in
            let* '(f, z) := count_ac_loop P vals 0 f in if 0 <? z then inc_freq P f 0 else Ret f)).
          pose proof (Z.mod_pos_bound zr 16 ltac:(lia)) as Hm.
          pose proof (nbits_bound v 10 ltac:(lia) Hv1) as Hn.
          assert (Es : Z.lor (wrap_u 8 (zr mod 16 * 2 ^ 4)) (nbits v) = 16 * (zr mod 16) + nbits v).
          { rewrite wrap_u_id by lia. rewrite lor_shift_add by lia.
            lia. }
          eapply counts_ext.
          2:{ apply (counts_bind (fun f => inc_freq P f (16 * (zr mod 16) + nbits v))
                (fun f => let* '(f, z) := count_ac_loop P vals 0 f in if 0 <? z then inc_freq P f 0 else Ret f) [16 * (zr mod 16) + nbits v]);
              [apply counts_inc; unfold sym; lia|apply IH; [assumption|lia|lia]]. }
          intros f. cbv beta. rewrite get_num_bits_ret by lia. cbn [bind]. rewrite Es. reflexivity. }
      intros f. cbv beta. rewrite bind_assoc. apply exec_bind_ext. intros [f1 z1].
      rewrite get_num_bits_ret by lia. cbn [bind]. apply bind_assoc.
Qed.

Lemma slice_len {A} (l : list A) s e : 0 <= s -> s <= e -> e <= zlen l -> length (slice l s e) = Z.to_nat (e - s).
Proof. intros. unfold slice, zlen in *. rewrite firstn_length, skipn_length. lia. Qed.

Lemma count_ac_ok P b s en : block_ok b -> 1 <= s -> s <= en -> en <= 64 ->
  counts (fun f => count_ac P b s en f) (ac_syms (slice b s en) 0).
Proof.
  intros Hb Hs Hse He. unfold count_ac. replace ((s <=? en) && (en <=? 64)) with true by lia.
  destruct Hb as (Hl & Hd & Ha).
  apply (count_ac_loop_ok P (slice b s en) 0); [apply block_ok_slice; [split; [exact Hl|split; assumption]|lia|lia]|lia|].
  rewrite slice_len by (unfold zlen; lia). lia.
Qed.

Definition small (s : Z) : Prop := sym s /\ s mod 16 <= 11.
Lemma small_dc s : 0 <= s <= 11 -> small s.
Proof. intros H. split; [unfold sym; lia|]. rewrite Z.mod_small; lia. Qed.
Lemma small_ac r n : 0 <= r < 16 -> 0 <= n <= 10 -> small (16 * r + n).
Proof.
  intros Hr Hn. split; [unfold sym; lia|]. rewrite Z.add_comm, Z.mul_comm, Z.mod_add by lia. rewrite Z.mod_small by lia. lia.
Qed.
Lemma ac_syms_small : forall vals zr, Forall (fun v => Z.abs v < 2 ^ 10) vals -> 0 <= zr -> Forall small (ac_syms vals zr).
Proof.
  induction vals as [|v vals IH]; intros zr Hv Hz; cbn [ac_syms].
  - destruct (0 <? zr); constructor; [apply (small_ac 0 0); lia|constructor].
  - inversion Hv as [|? ? Hv1 Hv2]; subst. destruct (v =? 0); [apply IH; [assumption|lia]|].
    apply Forall_app. split.
    + apply Forall_forall. intros x Hx. apply repeat_spec in Hx. subst. apply (small_ac 15 0); lia.
    + constructor; [|apply IH; [assumption|lia]]. pose proof (Z.mod_pos_bound zr 16 ltac:(lia)).
      pose proof (nbits_bound v 10 ltac:(lia) Hv1). now apply small_ac.
Qed.
Lemma ac_syms_length : forall vals zr, 0 <= zr -> Z.of_nat (length (ac_syms vals zr)) <= Z.of_nat (length vals) + zr.
Proof.
  induction vals as [|v vals IH]; intros zr Hz; cbn [ac_syms].
  - destruct (0 <? zr) eqn:E; cbn [length]; lia.
  - cbn [length]. destruct (v =? 0); [pose proof (IH (zr + 1) ltac:(lia)); lia|].
    rewrite app_length, repeat_length. cbn [length]. pose proof (IH 0 ltac:(lia)).
    assert (0 <= zr / 16 <= zr) by (split; [apply Z.div_pos; lia|apply Z.div_le_upper_bound; lia]). lia.
Qed.

Lemma small_list l : NoDup l -> Forall small l -> (length l <= 254)%nat.
Proof.
  intros Hn Hs. etransitivity; [apply (NoDup_incl_length Hn (l' := filter (fun s => s mod 16 <=? 11) (zrange 256)))|vm_compute; lia].
  intros x Hx. rewrite Forall_forall in Hs. destruct (Hs x Hx) as [H1 H2]. apply filter_In.
  split; [apply in_zrange; exact H1|lia].
Qed.

Lemma flat_map_length_le {X Y} (g : X -> list Y) (h : X -> Z) xs : (forall x, In x xs -> Z.of_nat (length (g x)) <= h x) ->
  Z.of_nat (length (flat_map g xs)) <= fold_right Z.add 0 (map h xs).
Proof.
  induction xs as [|x xs IH]; intros H; cbn [flat_map map fold_right]; [cbn; lia|].
  rewrite app_length. pose proof (H x (or_introl eq_refl)).
  assert (Z.of_nat (length (flat_map g xs)) <= fold_right Z.add 0 (map h xs)) by (apply IH; intros; apply H; now right). lia.
Qed.
Lemma fold_add_const {X} (k : Z) (xs : list X) : fold_right Z.add 0 (map (fun _ => k) xs) = k * Z.of_nat (length xs).
Proof. induction xs as [|x xs IH]; cbn [map fold_right length]; [lia|]. rewrite IH. lia. Qed.
Lemma fold_add_scale {X} (k : Z) (h : X -> Z) (xs : list X) : fold_right Z.add 0 (map (fun x => k * h x) xs) = k * fold_right Z.add 0 (map h xs).
Proof. induction xs as [|x xs IH]; cbn [map fold_right]; [lia|]. rewrite IH. lia. Qed.
Lemma fold_add_scale_r {X} (k : Z) (h : X -> Z) (xs : list X) : fold_right Z.add 0 (map (fun x => h x * k) xs) = fold_right Z.add 0 (map h xs) * k.
Proof. induction xs as [|x xs IH]; cbn [map fold_right]; [lia|]. rewrite IH. lia. Qed.

(** ** One table *)
Definition count_bands (e : encoder) : list (Z * Z) := match e_prog e with Some scans => bands scans | None => [(1, 64)] end.
Definition bands_width (bds : list (Z * Z)) : Z := fold_right Z.add 0 (map (fun b => snd b - fst b) bds).
(** From 34 scans on the first band is empty. *)
Definition band_in (b : Z * Z) : Prop := 1 <= fst b <= snd b /\ snd b <= 64.
Lemma bands_in scans : 2 <= scans <= 64 -> Forall band_in (bands scans).
Proof.
  intros Hs. assert (G : forallb (fun b => (1 <=? fst b) && (fst b <=? snd b) && (snd b <=? 64)) (bands scans) = true).
  { apply (zall (fun scans => forallb (fun b => (1 <=? fst b) && (fst b <=? snd b) && (snd b <=? 64)) (bands scans)) 2 65);
      [vm_compute; reflexivity|lia]. }
  apply Forall_forall. intros b Hb. rewrite forallb_forall in G. specialize (G b Hb). unfold band_in. lia.
Qed.
Lemma count_bands_width e : match e_prog e with Some s => 2 <= s <= 64 | None => True end ->
  Forall band_in (count_bands e) /\ bands_width (count_bands e) = 63.
Proof.
  unfold count_bands. destruct (e_prog e) as [s|]; intros Hs.
  - split; [now apply bands_in|].
    assert (G : (bands_width (bands s) =? 63) = true).
    { apply (zall (fun s => bands_width (bands s) =? 63) 2 65); [vm_compute; reflexivity|lia]. }
    lia.
  - split; [|reflexivity]. constructor; [unfold band_in; cbn [fst snd]; lia|constructor].
Qed.
Lemma some_band bds : 0 < bands_width bds -> exists b, In b bds /\ fst b < snd b.
Proof.
  unfold bands_width. induction bds as [|b bds IH]; cbn [map fold_right]; [lia|]. intros H.
  destruct (Z_lt_ge_dec (fst b) (snd b)) as [Hb|Hb]; [exists b; split; [now left|exact Hb]|].
  destruct IH as (b' & Hi & Hb'); [lia|]. exists b'. split; [now right|exact Hb'].
Qed.

Section Table.
  Variable P : platform.
  Variable HP : plat_ok P.
  Variable e : encoder.
  Variable Hprog : match e_prog e with Some s => 2 <= s <= 64 | None => True end.
  Variable cs : list component.
  Variable blocks : list (list (list Z)).
  Variable bs : Z -> list (list Z).
  Variable Hidx : forall i c, In (i, c) (enumerate cs) -> index blocks i = Ret (bs i).
  Variable Hbok : forall i c, In (i, c) (enumerate cs) -> Forall block_ok (bs i).
  Variable Hne : forall i c, In (i, c) (enumerate cs) -> bs i <> [].
  Definition block_total : Z := fold_right Z.add 0 (map (fun ic => Z.of_nat (length (bs (fst ic)))) (enumerate cs)).
  Variable Htot : 63 * block_total + 1 < 4294967296.

  Definition dc_of (table : Z) (ic : Z * component) : list Z := if c_dc (snd ic) =? table then dc_syms (bs (fst ic)) 0 else [].
  Definition ac_of (table : Z) (ic : Z * component) : list Z :=
    if c_ac (snd ic) =? table then flat_map (fun b => flat_map (fun blk => ac_syms (slice blk (fst b) (snd b)) 0) (bs (fst ic))) (count_bands e) else [].

  Lemma dc_of_ok table ic : In ic (enumerate cs) -> Forall small (dc_of table ic) /\ Z.of_nat (length (dc_of table ic)) <= Z.of_nat (length (bs (fst ic))).
  Proof.
    intros Hi. destruct ic as [i c]. unfold dc_of. cbn [fst snd]. destruct (_ =? _); [|split; [constructor|cbn [length]; lia]].
    rewrite dc_syms_length. split; [|lia]. eapply Forall_impl; [|apply dc_syms_bound; [exact (Hbok i c Hi)|lia]].
    intros s Hs. now apply small_dc.
  Qed.
  Lemma ac_of_ok table ic : In ic (enumerate cs) -> Forall small (ac_of table ic) /\ Z.of_nat (length (ac_of table ic)) <= 63 * Z.of_nat (length (bs (fst ic))).
  Proof.
    intros Hi. destruct ic as [i c]. unfold ac_of. cbn [fst snd]. destruct (_ =? _); [|split; [constructor|cbn [length]; lia]].
    destruct (count_bands_width e Hprog) as [Hb Hw]. pose proof (Hbok i c Hi) as Hbl. rewrite Forall_forall in Hb, Hbl. split.
    - apply Forall_flat_map, Forall_forall. intros b Hin. apply Forall_flat_map, Forall_forall. intros blk Hblk.
      destruct (Hb b Hin) as (H1 & H2). apply ac_syms_small; [|lia]. apply block_ok_slice; [now apply Hbl|lia|lia].
    - etransitivity.
      { apply (flat_map_length_le _ (fun b => (snd b - fst b) * Z.of_nat (length (bs i)))).
        intros b Hin. destruct (Hb b Hin) as (H1 & H2).
        etransitivity; [apply (flat_map_length_le _ (fun _ => snd b - fst b))|rewrite fold_add_const; lia].
        intros blk Hblk. pose proof (ac_syms_length (slice blk (fst b) (snd b)) 0 ltac:(lia)) as H3.
        destruct (Hbl blk Hblk) as (H4 & _). rewrite slice_len in H3 by (unfold zlen; lia). lia. }
      rewrite fold_add_scale_r. fold (bands_width (count_bands e)). rewrite Hw. lia.
  Qed.

  Definition all_dc table := flat_map (dc_of table) (enumerate cs).
  Definition all_ac table := flat_map (ac_of table) (enumerate cs).
  Lemma all_dc_ok table : Forall small (all_dc table) /\ Z.of_nat (length (all_dc table)) <= block_total.
  Proof.
    split.
    - apply Forall_flat_map, Forall_forall. intros ic Hi. now apply dc_of_ok.
    - apply flat_map_length_le. intros ic Hi. now apply dc_of_ok.
  Qed.
  Lemma all_ac_ok table : Forall small (all_ac table) /\ Z.of_nat (length (all_ac table)) <= 63 * block_total.
  Proof.
    split.
    - apply Forall_flat_map, Forall_forall. intros ic Hi. now apply ac_of_ok.
    - unfold block_total. rewrite <- fold_add_scale. apply (flat_map_length_le _ (fun ic => 63 * Z.of_nat (length (bs (fst ic))))).
      intros ic Hi. now apply ac_of_ok.
  Qed.

  Lemma lt32 (z : Z) : z < 4294967296 -> z < 2 ^ 32. Proof. lia. Qed.
  Lemma small_sym l : Forall small l -> Forall sym l.
  Proof. intros H. eapply Forall_impl; [|exact H]. intros s [Hs _]. exact Hs. Qed.

  Lemma emits_debug_assert b : b = true -> emits (debug_assert P b) [] tt.
  Proof. intros ->. unfold debug_assert. destruct (dbg P); reflexivity. Qed.

  Lemma dc_step table i c f hd : In (i, c) (enumerate cs) -> hok f -> tot f + Z.of_nat (length (dc_of table (i, c))) < 4294967296 ->
    emits (if c_dc c =? table then
           debug_assert P (negb (length (bs i) =? 0)%nat) ;;;
           let* f := count_dc P (bs i) 0 f in Ret (f, true)
         else Ret (f, hd)) [] (tally f (dc_of table (i, c)), hd || (c_dc c =? table)).
  Proof.
    intros Hi Hf Ht. unfold dc_of in *. cbn [fst snd] in *. destruct (c_dc c =? table).
    - rewrite orb_true_r. eapply emits_bind0; [apply emits_debug_assert; pose proof (Hne i c Hi); destruct (bs i); [contradiction|reflexivity]|].
      destruct (count_dc_ok P (bs i) 0 (Hbok i c Hi) ltac:(lia)) as [_ H]. eapply emits_bind0; [apply H; [exact Hf|now apply lt32]|apply emits_ret].
    - rewrite orb_false_r. apply emits_ret.
  Qed.

  Lemma ac_step_counts i c : In (i, c) (enumerate cs) -> forall b, In b (count_bands e) ->
    counts (fun f => foldM (fun freq block => count_ac P block (fst b) (snd b) freq) (bs i) f)
      (flat_map (fun blk => ac_syms (slice blk (fst b) (snd b)) 0) (bs i)).
  Proof.
    intros Hi b Hb. destruct (count_bands_width e Hprog) as [Hbd _]. rewrite Forall_forall in Hbd. destruct (Hbd b Hb) as (H1 & H2).
    pose proof (Hbok i c Hi) as Hbl. rewrite Forall_forall in Hbl.
    apply (counts_fold (fun freq block => count_ac P block (fst b) (snd b) freq)). intros blk Hblk.
    apply count_ac_ok; [now apply Hbl|lia|lia|lia].
  Qed.

  Lemma ac_step table i c f ha : In (i, c) (enumerate cs) -> hok f -> tot f + Z.of_nat (length (ac_of table (i, c))) < 4294967296 ->
    emits (if c_ac c =? table then
           match e_prog e with
           | Some scans =>
             let* bands := opt_bands P scans in
             let* f := foldM (fun freq '(start, end_) =>
                         debug_assert P (negb (length (bs i) =? 0)%nat) ;;;
                         foldM (fun freq block => count_ac P block start end_ freq) (bs i) freq)
                       bands f in
             Ret (f, true)
           | None =>
             let* f := foldM (fun freq block => count_ac P block 1 64 freq) (bs i) f in
             Ret (f, true)
           end
         else Ret (f, ha)) [] (tally f (ac_of table (i, c)), ha || (c_ac c =? table)).
  Proof.
    intros Hi Hf Ht. unfold ac_of in *. cbn [fst snd] in *. destruct (c_ac c =? table).
    2:{ rewrite orb_false_r. apply emits_ret. }
    rewrite orb_true_r. pose proof (ac_step_counts i c Hi) as Hc. unfold count_bands in *.
    destruct (e_prog e) as [scans|].
    - rewrite opt_bands_ret by (assumption || lia). cbn [bind].
      eapply emits_bind0; [|apply emits_ret].
      assert (G : counts (fun f => foldM (fun freq '(start, end_) =>
                         debug_assert P (negb (length (bs i) =? 0)%nat) ;;;
                         foldM (fun freq block => count_ac P block start end_ freq) (bs i) freq) (bands scans) f)
                   (flat_map (fun b => flat_map (fun blk => ac_syms (slice blk (fst b) (snd b)) 0) (bs i)) (bands scans))).
      { apply (counts_fold (fun freq '(start, end_) =>
                         debug_assert P (negb (length (bs i) =? 0)%nat) ;;;
                         foldM (fun freq block => count_ac P block start end_ freq) (bs i) freq)).
        intros b Hb. eapply counts_ext; [|apply (Hc b Hb)]. intros g. destruct b as [s en]. cbn [fst snd].
        pose proof (Hne i c Hi) as Hn. unfold debug_assert. destruct (bs i); [contradiction|]. cbn [length Nat.eqb negb].
        destruct (dbg P); reflexivity. }
      apply G; [exact Hf|now apply lt32].
    - cbn [flat_map] in *. rewrite app_nil_r in *. eapply emits_bind0; [|apply emits_ret].
      apply (Hc (1, 64)); [now left|exact Hf|now apply lt32].
  Qed.

  Definition table_step (table : Z) : (list Z * list Z * bool * bool) -> (Z * component) -> prog (list Z * list Z * bool * bool) :=
    fun '(dc_freq, ac_freq, had_dc, had_ac) '(i, c) =>
      let* bs := index blocks i in
      let* '(dc_freq, had_dc) :=
        (if c_dc c =? table then
           debug_assert P (negb (length bs =? 0)%nat) ;;;
           let* f := count_dc P bs 0 dc_freq in Ret (f, true)
         else Ret (dc_freq, had_dc)) in
      let* '(ac_freq, had_ac) :=
        (if c_ac c =? table then
           match e_prog e with
           | Some scans =>
             let* bands := opt_bands P scans in
             let* f := foldM (fun freq '(start, end_) =>
                         debug_assert P (negb (length bs =? 0)%nat) ;;;
                         foldM (fun freq block => count_ac P block start end_ freq) bs freq)
                       bands ac_freq in
             Ret (f, true)
           | None =>
             let* f := foldM (fun freq block => count_ac P block 1 64 freq) bs ac_freq in
             Ret (f, true)
           end
         else Ret (ac_freq, had_ac)) in
      Ret (dc_freq, ac_freq, had_dc, had_ac).

  Lemma table_fold table : forall l df af hd ha, incl l (enumerate cs) -> hok df -> hok af ->
    tot df + Z.of_nat (length (flat_map (dc_of table) l)) < 4294967296 ->
    tot af + Z.of_nat (length (flat_map (ac_of table) l)) < 4294967296 ->
    emits (foldM (table_step table) l (df, af, hd, ha)) []
      (tally df (flat_map (dc_of table) l), tally af (flat_map (ac_of table) l),
       hd || existsb (fun ic => c_dc (snd ic) =? table) l, ha || existsb (fun ic => c_ac (snd ic) =? table) l).
  Proof.
    induction l as [|[i c] l IH]; intros df af hd ha Hl Hd Ha Td Ta; cbn [foldM flat_map existsb snd].
    { rewrite !orb_false_r. apply emits_ret. }
    cbn [flat_map] in Td, Ta. rewrite app_length in Td, Ta.
    assert (Hi : In (i, c) (enumerate cs)) by (apply Hl; now left).
    assert (Sd := small_sym _ (proj1 (dc_of_ok table (i, c) Hi))). assert (Sa := small_sym _ (proj1 (ac_of_ok table (i, c) Hi))).
    destruct (tally_ok _ df Hd Sd) as [D1 D2]. destruct (tally_ok _ af Ha Sa) as [A1 A2].
    eapply emits_bind0.
    { unfold table_step. rewrite (Hidx i c Hi). cbn [bind].
      eapply emits_bind0; [apply dc_step; [exact Hi|exact Hd|lia]|]. cbv beta iota.
      eapply emits_bind0; [apply ac_step; [exact Hi|exact Ha|lia]|]. cbv beta iota. apply emits_ret. }
    rewrite !tally_app, !orb_assoc. apply IH; [intros x Hx; apply Hl; now right|exact D1|exact A1|lia|lia].
  Qed.

  Lemma init_hok : hok init_freq /\ tot init_freq = 1 /\ nth 256 init_freq 0 = 1 /\ forall k, (k < 256)%nat -> nth k init_freq 0 = 0.
  Proof.
    assert (Hk : forall k, (k < 256)%nat -> nth k init_freq 0 = 0).
    { intros k Hk. unfold init_freq. rewrite app_nth1 by (rewrite repeat_length; exact Hk). apply nth_repeat. }
    assert (H256 : nth 256 init_freq 0 = 1) by reflexivity.
    split; [|split; [reflexivity|split; [reflexivity|exact Hk]]]. split; [reflexivity|].
    intros s. destruct (Nat.lt_ge_cases s 256) as [H|H]; [rewrite Hk by exact H; lia|].
    destruct (Nat.eq_dec s 256) as [->|N]; [rewrite H256; lia|].
    rewrite nth_overflow; [lia|]. change (length init_freq) with 257%nat. lia.
  Qed.

  (** the table for a list of symbols *)
  Definition table_for_syms (l : list Z) (t : htab) (tb : table) : Prop :=
    emits (new_optimized P (tally init_freq l)) [] t /\ valid_tab t tb /\ forall s, In s l -> codes t tb s.
  Definition deep (l : list Z) : Prop := new_optimized P (tally init_freq l) = Panic PIndex.
  Lemma new_table l : Forall small l -> l <> [] -> 1 + Z.of_nat (length l) < 4294967296 ->
    ((exists t tb, table_for_syms l t tb) \/ deep l) /\
    (1 + Z.of_nat (length l) < 9227465 -> exists t tb, table_for_syms l t tb).
  Proof.
    intros Hs Hn Hl. destruct init_hok as (I1 & I2 & I3 & I4). pose proof (small_sym l Hs) as Hy.
    destruct (tally_ok l init_freq I1 Hy) as [T1 T2]. pose proof (tally_reserved l init_freq I1 Hy) as T3.
    assert (Hu : forall v, In v (used (tally init_freq l)) <-> In v l).
    { intros v. unfold used. rewrite filter_In, in_zrange. split.
      - intros [Hv Hp]. destruct (tally_pos l init_freq (Z.to_nat v) I1 Hy) as [H|H].
        + unfold zn in Hp. lia.
        + rewrite I4 in H by lia. lia.
        + now rewrite Z2Nat.id in H by lia.
      - intros Hi. pose proof (tally_in l init_freq v I1 Hy Hi). rewrite Forall_forall in Hy. pose proof (Hy v Hi) as Hv. unfold sym in Hv. lia. }
    assert (H1 : fold_right Z.add 0 (tally init_freq l) < 4294967296) by (fold (tot (tally init_freq l)); lia).
    assert (H2 : 0 < nth 256 (tally init_freq l) 0) by (rewrite T3, I3; lia).
    assert (H3 : (1 <= length (used (tally init_freq l)) <= 254)%nat).
    { split.
      + destruct l as [|v l']; [contradiction|]. assert (In v (used (tally init_freq (v :: l')))) by (apply Hu; now left).
        destruct (used _); [contradiction|cbn [length]; lia].
      + apply small_list; [apply NoDup_filter, zrange_NoDup|]. apply Forall_forall. intros v Hv. apply Hu in Hv.
        rewrite Forall_forall in Hs. now apply Hs. }
    assert (G : table_made (tally init_freq l) P -> exists t tb, table_for_syms l t tb).
    { intros (t & tb & He & Hv & _ & _ & Hc & _). exists t, tb. split; [exact He|]. split; [exact Hv|]. intros s Hi. apply Hc, Hu, Hi. }
    split.
    - destruct (new_optimized_cases (tally init_freq l) (ho_len _ T1) (ho_nn _ T1) H1 H2 H3 P) as [M|M]; [left; exact (G M)|right; exact M].
    - intros Hsm. apply G. apply (new_optimized_ok (tally init_freq l) (ho_len _ T1) (ho_nn _ T1) H1 H2 H3 P).
      fold (tot (tally init_freq l)). lia.
  Qed.

  Lemma optimize_table_exec table :
    (exists i c, In (i, c) (enumerate cs) /\ c_dc c = table /\ c_ac c = table) ->
    (Forall small (all_dc table) /\ all_dc table <> [] /\ 1 + Z.of_nat (length (all_dc table)) <= 63 * block_total + 1) /\
    (Forall small (all_ac table) /\ all_ac table <> [] /\ 1 + Z.of_nat (length (all_ac table)) <= 63 * block_total + 1) /\
    exec (optimize_table P e cs blocks table) = exec (
      let* dc := new_optimized P (tally init_freq (all_dc table)) in
      let* ac := new_optimized P (tally init_freq (all_ac table)) in Ret (dc, ac)).
  Proof.
    intros (i & c & Hi & Ed & Ea). destruct init_hok as (I1 & I2 & I3 & I4).
    destruct (all_dc_ok table) as [Sd Ld]. destruct (all_ac_ok table) as [Sa La].
    assert (Hb : bs i <> []) by exact (Hne i c Hi).
    assert (Nd : all_dc table <> []).
    { intros E. assert (H : In (nbits (zn (hd [] (bs i)) 0 - 0)) (all_dc table)).
      { apply in_flat_map. exists (i, c). split; [exact Hi|]. unfold dc_of. cbn [fst snd]. replace (c_dc c =? table) with true by lia.
        destruct (bs i); [contradiction|]. left. reflexivity. }
      rewrite E in H. destruct H. }
    assert (Na : all_ac table <> []).
    { intros E. destruct (count_bands_width e Hprog) as [Hbd Hw].
      destruct (some_band (count_bands e) ltac:(lia)) as ([s en] & Hin & Hlt). rewrite Forall_forall in Hbd.
      destruct (Hbd _ Hin) as (H1 & H2). cbn [fst snd] in H1, H2, Hlt.
      pose proof (Hbok i c Hi) as Hbl. destruct (bs i) as [|blk rest] eqn:Ebs; [contradiction|].
      inversion Hbl as [|? ? Hblk _]; subst.
      assert (Hne2 : ac_syms (slice blk s en) 0 <> []).
      { assert (L : length (slice blk s en) = Z.to_nat (en - s)) by (destruct Hblk as (H64 & _); apply slice_len; unfold zlen; lia).
        destruct (slice blk s en) as [|v r]; [cbn [length] in L; lia|]. clear. cbn [ac_syms]. destruct (v =? 0).
        - assert (G : forall l z, 0 < z -> ac_syms l z <> []); [|apply G; lia].
          induction l as [|x l IH]; intros z Hz; cbn [ac_syms]; [replace (0 <? z) with true by lia; discriminate|].
          destruct (x =? 0); [apply IH; lia|]. destruct (repeat 240 (Z.to_nat (z / 16))); discriminate.
        - destruct (repeat 240 (Z.to_nat (0 / 16))); discriminate. }
      destruct (ac_syms (slice blk s en) 0) as [|x xs] eqn:Ex; [contradiction|].
      assert (H : In x []); [|destruct H]. rewrite <- E.
      apply in_flat_map. exists (i, c). split; [exact Hi|]. unfold ac_of. cbn [fst snd].
      match goal with |- context [if ?b then _ else _] => replace b with true by lia end.
      apply in_flat_map. exists (s, en). split; [exact Hin|]. cbn [fst snd]. rewrite Ebs. cbn [flat_map]. apply in_or_app. left. rewrite Ex. now left. }
    assert (Xd : existsb (fun ic => c_dc (snd ic) =? table) (enumerate cs) = true).
    { apply existsb_exists. exists (i, c). split; [exact Hi|cbn [snd]; lia]. }
    assert (Xa : existsb (fun ic => c_ac (snd ic) =? table) (enumerate cs) = true).
    { apply existsb_exists. exists (i, c). split; [exact Hi|cbn [snd]; lia]. }
    assert (Ex : exec (optimize_table P e cs blocks table) = exec (
      let* dc := new_optimized P (tally init_freq (all_dc table)) in
      let* ac := new_optimized P (tally init_freq (all_ac table)) in Ret (dc, ac))).
    { unfold optimize_table. fold (table_step table).
      eapply exec_after0.
      { apply (table_fold table (enumerate cs) init_freq init_freq false false (incl_refl _) I1 I1);
          fold (all_dc table) (all_ac table); lia. }
      cbv beta iota. cbn [orb]. fold (all_dc table) (all_ac table). rewrite Xd, Xa. reflexivity. }
    split; [split; [exact Sd|split; [exact Nd|lia]]|]. split; [split; [exact Sa|split; [exact Na|lia]]|].
    exact Ex.
  Qed.

  Lemma optimize_table_ok table : 
    (exists i c, In (i, c) (enumerate cs) /\ c_dc c = table /\ c_ac c = table) ->
    let good := exists d a bd ba, emits (optimize_table P e cs blocks table) [] (d, a) /\
      table_for_syms (all_dc table) d bd /\ table_for_syms (all_ac table) a ba in
    (good \/ exec (optimize_table P e cs blocks table) = ([], Panicked PIndex)) /\
    (63 * block_total + 1 < 9227465 -> good).
  Proof.
    intros Hx good. destruct (optimize_table_exec table Hx) as ((Sd & Nd & Ld) & (Sa & Na & La) & Ex).
    destruct (new_table (all_dc table) Sd Nd ltac:(lia)) as [Td Td'].
    destruct (new_table (all_ac table) Sa Na ltac:(lia)) as [Ta Ta'].
    assert (G : (exists t tb, table_for_syms (all_dc table) t tb) -> (exists t tb, table_for_syms (all_ac table) t tb) -> good).
    { intros (d & bd & Hd) (a & ba & Ha). exists d, a, bd, ba. split; [|split; assumption]. unfold emits. rewrite Ex.
      change (emits (let* dc := new_optimized P (tally init_freq (all_dc table)) in
        let* ac := new_optimized P (tally init_freq (all_ac table)) in Ret (dc, ac)) [] (d, a)).
      eapply emits_bind0; [apply Hd|]. eapply emits_bind0; [apply Ha|]. apply emits_ret. }
    split; [|intros Hsm; apply G; [apply Td'|apply Ta']; lia].
    destruct Td as [Td|Td].
    - destruct Ta as [Ta|Ta]; [left; now apply G|right]. rewrite Ex. destruct Td as (d & bd & Hd & _).
      rewrite (exec_after0 _ d _ _ Hd eq_refl). unfold deep in Ta. rewrite Ta. reflexivity.
    - right. rewrite Ex. unfold deep in Td. rewrite Td. reflexivity.
  Qed.
End Table.

(** ** The whole file *)
Lemma dc_path_intro ri {G : Z -> unitb -> Prop} us : forall t prev, ri = 0 \/ Z.of_nat (length us) <= t ->
  (forall s u, In u us -> In (nbits (zn (snd u) 0 - s)) (dc_syms (map snd us) prev) -> G s u) ->
  path Z unitb ri 0 (fun _ u => zn (snd u) 0) G t prev us.
Proof.
  induction us as [|u us IH]; intros t prev Hr H; cbn [path]; [exact I|]. cbn [map dc_syms] in H. cbn [length] in Hr.
  replace ((0 <? ri) && (t =? 0)) with false by lia.
  split; [apply H; now left|]. apply IH; [|intros s v Hv Hs; apply H; now right].
  destruct Hr as [Hr|Hr]; [now left|right]. replace (t =? 0) with false by lia. lia.
Qed.
Lemma zrange_len n : length (zrange n) = Z.to_nat n.
Proof. unfold zrange. now rewrite map_length, seq_length. Qed.
Lemma grid_len rows cols : 0 <= rows -> 0 <= cols -> Z.of_nat (length (grid rows cols)) = rows * cols.
Proof.
  intros Hr Hc. unfold grid. rewrite <- (Z2Nat.id rows Hr) at 2. rewrite <- (zrange_len rows).
  induction (zrange rows) as [|y l IH]; cbn [flat_map length]; [lia|]. rewrite app_length, map_length, zrange_len. lia.
Qed.

Section Opt.
  Variable P : platform.
  Variable HP : plat_ok P.
  Variable im : image.
  Variable pl : planes.
  Variable Him : image_ok im pl.
  Variable op : operations.
  Variable F : list Z -> list Z.
  Variable Hop : op_ok op F.
  Variable e : encoder.
  Variables t0 t1 : qtype.
  Variable He : enc_ok e t0 t1.
  Variable Hopt : e_optimize e = true.
  Let q0 := qtable_of t0 (e_quality e) true.
  Let q1 := qtable_of t1 (e_quality e) false.
  Let cs := init_components (e_sampling e) (im_color im).
  Let mh := max_h (e_sampling e) (im_color im).
  Let mv := max_v (e_sampling e) (im_color im).
  Let fr := frame_of (match e_prog e with Some _ => true | None => false end) (im_width im) (im_height im) cs.
  Definition frame_blocks (f : frame) : Z := fold_right Z.add 0 (map (fun c => blocks_wide f c * blocks_high f c) (fr_comps f)).
  Variable Htot : 63 * frame_blocks fr + 1 < 4294967296.
  Let uns := units im pl F mh mv q0 q1.
  Let bs (i : Z) : list (list Z) := match nth_error cs (Z.to_nat i) with Some c => map snd (uns (Z.to_nat i) c) | None => [] end.

  Let Hcs : comps_ok cs mh mv. Proof. apply init_components_ok. Qed.
  Let Hn : length cs = Z.to_nat (num_components (im_color im)). Proof. apply init_components_length. Qed.
  Let Hq0 : qtable_ok q0. Proof. apply qtable_of_ok; apply (eo_qt0 _ _ _ He). Qed.
  Let Hq1 : qtable_ok q1. Proof. apply qtable_of_ok; apply (eo_qt1 _ _ _ He). Qed.
  Let Hprog' : match e_prog e with Some s => 2 <= s <= 64 | None => True end.
  Proof. exact (eo_prog _ _ _ He). Qed.

  Lemma bs_eq i c : In (i, c) (enumerate cs) -> bs i = map snd (uns (Z.to_nat i) c).
  Proof. intros Hin. apply in_enum in Hin as [Hi Hc]. unfold bs. now rewrite Hc. Qed.
  Lemma bs_idx i c : In (i, c) (enumerate cs) -> index (all_blocks im pl F cs mh mv q0 q1) i = Ret (bs i).
  Proof.
    intros Hin. rewrite (bs_eq i c Hin).
    exact (index_blocks P im pl F cs mh mv Hn q0 q1 e std_chroma_dc std_chroma_ac tb_cdc tb_cac (fun _ => V_cdc) (fun _ => V_cac) i c Hin).
  Qed.
  Lemma bs_ok i c : In (i, c) (enumerate cs) -> Forall block_ok (bs i).
  Proof.
    intros Hin. rewrite (bs_eq i c Hin). apply in_enum in Hin as [Hi Hc]. apply Forall_forall. intros b Hb.
    apply in_map_iff in Hb as (u & <- & Hu).
    exact (proj2 (units_ok im pl Him op F Hop cs mh mv Hcs Hn q0 q1 Hq0 Hq1 _ c u Hc Hu)).
  Qed.
  Lemma bs_len i c : In (i, c) (enumerate cs) -> Z.of_nat (length (bs i)) = blocks_wide fr (comp_of c) * blocks_high fr (comp_of c) /\ bs i <> [].
  Proof.
    intros Hin. rewrite (bs_eq i c Hin). apply in_enum in Hin as [Hi Hc].
    pose proof (cs_comp _ _ _ Hcs _ _ Hc) as Hcc.
    pose proof (stride_pos mh (c_h c) (cs_mh _ _ _ Hcs) (ck_h _ _ _ _ _ Hcc)) as Hhs.
    pose proof (stride_pos mv (c_v c) (cs_mv _ _ _ Hcs) (ck_v _ _ _ _ _ Hcc)) as Hvs.
    pose proof (io_width _ _ Him) as HW. pose proof (io_height _ _ Him) as HH.
    unfold fr. rewrite (blocks_wide_eq _ _ _ cs mh mv _ c Hcs Hc), (blocks_high_eq _ _ _ cs mh mv _ c Hcs Hc).
    assert (N1 : 1 <= ncols (im_width im) mh c).
    { unfold ncols, hstride. apply ceil_div_pos; [lia|]. apply ceil_div_pos; lia. }
    assert (N2 : 1 <= nrows (im_height im) mv c).
    { unfold nrows, vstride. apply ceil_div_pos; [lia|]. apply ceil_div_pos; lia. }
    assert (L : Z.of_nat (length (map snd (uns (Z.to_nat i) c))) = ncols (im_width im) mh c * nrows (im_height im) mv c).
    { unfold uns, units. rewrite !map_length. rewrite grid_len by lia. lia. }
    split; [exact L|]. intros E. rewrite E in L. cbn [length] in L. nia.
  Qed.

  Lemma total_eq : block_total cs bs = frame_blocks fr.
  Proof.
    unfold block_total, frame_blocks. replace (fr_comps fr) with (map comp_of cs) by reflexivity. rewrite map_map.
    assert (E : map (fun ic : Z * component => Z.of_nat (length (bs (fst ic)))) (enumerate cs)
              = map (fun ic => blocks_wide fr (comp_of (snd ic)) * blocks_high fr (comp_of (snd ic))) (enumerate cs)).
    { apply map_ext_in. intros [i c] Hic. apply (bs_len i c Hic). }
    rewrite E. f_equal. rewrite <- (map_map snd (fun c => blocks_wide fr (comp_of c) * blocks_high fr (comp_of c))).
    f_equal. unfold enumerate. apply combine_snd. unfold zrange, zlen. rewrite map_length, seq_length. lia.
  Qed.

  (** The tables *)
  Definition opt_tables (d0 a0 d1 a1 : htab) (bd0 ba0 bd1 ba1 : table) : Prop :=
    emits (tables_for P e cs (all_blocks im pl F cs mh mv q0 q1)) [] [(d0, a0); (d1, a1)] /\
    valid_tab d0 bd0 /\ valid_tab a0 ba0 /\ valid_tab d1 bd1 /\ valid_tab a1 ba1 /\
    forall i c, In (i, c) (enumerate cs) ->
      (forall s, In s (dc_syms (bs i) 0) -> codes (sel2 d0 d1 (c_qt c)) (sel2 bd0 bd1 (c_qt c)) s) /\
      (forall b blk s, In b (count_bands e) -> In blk (bs i) -> In s (ac_syms (slice blk (fst b) (snd b)) 0) ->
         codes (sel2 a0 a1 (c_qt c)) (sel2 ba0 ba1 (c_qt c)) s).

  Lemma syms_in table d a bd ba : table_for_syms P (all_dc cs bs table) d bd -> table_for_syms P (all_ac e cs bs table) a ba ->
    forall i c, In (i, c) (enumerate cs) -> c_qt c = table ->
      (forall s, In s (dc_syms (bs i) 0) -> codes d bd s) /\
      (forall b blk s, In b (count_bands e) -> In blk (bs i) -> In s (ac_syms (slice blk (fst b) (snd b)) 0) -> codes a ba s).
  Proof.
    intros (_ & _ & Hd) (_ & _ & Ha) i c Hi Eq. pose proof Hi as Hi'. apply in_enum in Hi' as [_ Hc].
    pose proof (cs_comp _ _ _ Hcs _ _ Hc) as Hcc. split.
    - intros s Hs. apply Hd. apply in_flat_map. exists (i, c). split; [exact Hi|]. unfold dc_of. cbn [fst snd].
      rewrite (ck_dc _ _ _ _ _ Hcc), Eq, Z.eqb_refl. exact Hs.
    - intros b blk s Hb Hblk Hs. apply Ha. apply in_flat_map. exists (i, c). split; [exact Hi|]. unfold ac_of. cbn [fst snd].
      rewrite (ck_ac _ _ _ _ _ Hcc), Eq, Z.eqb_refl. apply in_flat_map. exists b. split; [exact Hb|].
      apply in_flat_map. exists blk. split; assumption.
  Qed.

  Lemma has_table0 : exists i c, In (i, c) (enumerate cs) /\ c_dc c = 0 /\ c_ac c = 0.
  Proof.
    unfold cs, init_components. destruct (sampling_factors (e_sampling e)) as [h v].
    destruct (im_color im); [exists 0|exists 0|exists 3|exists 0]; eexists; (split; [apply in_enum; split; [lia|reflexivity]|]); split; reflexivity.
  Qed.
  Lemma has_table1 : zlen cs <> 1 -> exists i c, In (i, c) (enumerate cs) /\ c_dc c = 1 /\ c_ac c = 1.
  Proof.
    unfold cs, init_components. destruct (sampling_factors (e_sampling e)) as [h v].
    destruct (im_color im); intros L1; [exfalso; apply L1; reflexivity|exists 1|exists 1|exists 1]; eexists; (split; [apply in_enum; split; [lia|reflexivity]|]); split; reflexivity.
  Qed.

  Lemma opt_tables_cases : let good := exists d0 a0 d1 a1 bd0 ba0 bd1 ba1, opt_tables d0 a0 d1 a1 bd0 ba0 bd1 ba1 in
    (good \/ exec (tables_for P e cs (all_blocks im pl F cs mh mv q0 q1)) = ([], Panicked PIndex)) /\
    (63 * frame_blocks fr + 1 < 9227465 -> good).
  Proof.
    intros good. set (blocks := all_blocks im pl F cs mh mv q0 q1).
    assert (HT : 63 * block_total cs bs + 1 < 4294967296) by (rewrite total_eq; exact Htot).
    rewrite <- total_eq.
    pose proof (optimize_table_ok P HP e Hprog' cs blocks bs bs_idx bs_ok
                  (fun i c Hi => proj2 (bs_len i c Hi)) HT) as Hot.
    destruct (Hot 0) as [C0 S0].
    { exact has_table0. }
    destruct (Z.eq_dec (zlen cs) 1) as [L1|L1].
    - assert (G : (exists d a bd ba, emits (optimize_table P e cs blocks 0) [] (d, a) /\
        table_for_syms P (all_dc cs bs 0) d bd /\ table_for_syms P (all_ac e cs bs 0) a ba) -> good).
      { intros (d0 & a0 & bd0 & ba0 & E0 & D0 & A0).
        exists d0, a0, std_chroma_dc, std_chroma_ac, bd0, ba0, tb_cdc, tb_cac.
        split; [|split; [apply D0|split; [apply A0|split; [exact V_cdc|split; [exact V_cac|]]]]].
        + unfold tables_for. rewrite Hopt. unfold optimize_huffman_table. rewrite L1.
          change (zrange (Z.min 1 2)) with [0]. cbn [foldM]. eapply emits_bind0; [|apply emits_ret].
          eapply emits_bind0; [exact E0|]. rewrite (eo_huff _ _ _ He). apply emits_ret.
        + intros i c Hi. pose proof Hi as Hi'. apply in_enum in Hi' as [_ Hc].
          pose proof (cs_comp _ _ _ Hcs _ _ Hc) as Hcc.
          assert (Eq : c_qt c = 0) by (destruct (ck_qt _ _ _ _ _ Hcc) as [E|[_ E]]; [exact E|unfold zlen in L1; lia]).
          rewrite Eq. exact (syms_in 0 d0 a0 bd0 ba0 D0 A0 i c Hi Eq). }
      split; [|intros Hsm; apply G, S0, Hsm].
      destruct C0 as [C0|C0]; [left; exact (G C0)|right].
      unfold tables_for. rewrite Hopt. unfold optimize_huffman_table. rewrite L1.
      change (zrange (Z.min 1 2)) with [0]. cbn [foldM]. apply exec_bind_panic, exec_bind_panic. exact C0.
    - destruct (Hot 1) as [C1 S1].
      { exact (has_table1 L1). }
      assert (Em : Z.min (zlen cs) 2 = 2) by (pose proof (cs_len _ _ _ Hcs); unfold zlen in *; lia).
      assert (G : (exists d a bd ba, emits (optimize_table P e cs blocks 0) [] (d, a) /\
        table_for_syms P (all_dc cs bs 0) d bd /\ table_for_syms P (all_ac e cs bs 0) a ba) ->
        (exists d a bd ba, emits (optimize_table P e cs blocks 1) [] (d, a) /\
        table_for_syms P (all_dc cs bs 1) d bd /\ table_for_syms P (all_ac e cs bs 1) a ba) -> good).
      { intros (d0 & a0 & bd0 & ba0 & E0 & D0 & A0) (d1 & a1 & bd1 & ba1 & E1 & D1 & A1).
        exists d0, a0, d1, a1, bd0, ba0, bd1, ba1.
        split; [|split; [apply D0|split; [apply A0|split; [apply D1|split; [apply A1|]]]]].
        + unfold tables_for. rewrite Hopt. unfold optimize_huffman_table. rewrite Em.
          change (zrange 2) with [0; 1]. cbn [foldM]. eapply emits_bind0; [eapply emits_bind0; [exact E0|]; rewrite (eo_huff _ _ _ He); apply emits_ret|].
          eapply emits_bind0; [eapply emits_bind0; [exact E1|]; apply emits_ret|]. apply emits_ret.
        + intros i c Hi. pose proof Hi as Hi'. apply in_enum in Hi' as [_ Hc].
          pose proof (cs_comp _ _ _ Hcs _ _ Hc) as Hcc.
          destruct (ck_qt _ _ _ _ _ Hcc) as [Eq|[Eq _]]; rewrite Eq.
          * exact (syms_in 0 d0 a0 bd0 ba0 D0 A0 i c Hi Eq).
          * exact (syms_in 1 d1 a1 bd1 ba1 D1 A1 i c Hi Eq). }
      split; [|intros Hsm; apply G; [apply S0, Hsm|apply S1, Hsm]].
      destruct C0 as [C0|C0].
      + destruct C1 as [C1|C1]; [left; exact (G C0 C1)|right].
        destruct C0 as (d0 & a0 & bd0 & ba0 & E0 & _).
        unfold tables_for. rewrite Hopt. unfold optimize_huffman_table. rewrite Em. change (zrange 2) with [0; 1]. cbn [foldM].
        eapply exec_after0; [eapply emits_bind0; [exact E0|]; rewrite (eo_huff _ _ _ He); apply emits_ret|].
        apply exec_bind_panic, exec_bind_panic. exact C1.
      + right. unfold tables_for. rewrite Hopt. unfold optimize_huffman_table. rewrite Em. change (zrange 2) with [0; 1]. cbn [foldM].
        apply exec_bind_panic, exec_bind_panic. exact C0.
  Qed.

  Lemma in_enum_nat i c : nth_error cs i = Some c -> In (Z.of_nat i, c) (enumerate cs).
  Proof. intros H. apply in_enum. rewrite Nat2Z.id. split; [lia|exact H]. Qed.

  (** Along every scan, with the prediction reset at the restarts, each DC category is one that was counted
      for the table used. *)
  Definition counted (c : component) (v : Z) : Prop :=
    exists j c', In (j, c') (enumerate cs) /\ c_qt c' = c_qt c /\ In v (dc_syms (bs j) 0).
  Definition covered_paths : Prop := forall i c, nth_error cs i = Some c ->
    path Z unitb (restart_of e) 0 (fun _ u => zn (snd u) 0)
      (fun p u => counted c (nbits (zn (snd u) 0 - p))) (restart_of e) 0 (uns i c).
  Lemma no_restart_covered :
    restart_of e = 0 \/ Forall (fun c => blocks_wide fr c * blocks_high fr c <= restart_of e) (fr_comps fr) ->
    covered_paths.
  Proof.
    intros Hri i c Hi. apply dc_path_intro.
    - destruct Hri as [E|E]; [now left|right]. rewrite Forall_forall in E.
      specialize (E (comp_of c) ltac:(apply in_map; exact (nth_error_In _ _ Hi))).
      destruct (bs_len _ c (in_enum_nat i c Hi)) as [L _]. rewrite (bs_eq _ c (in_enum_nat i c Hi)), map_length, Nat2Z.id in L.
      etransitivity; [apply Z.eq_le_incl; exact L|exact E].
    - intros p u Hu Hp. exists (Z.of_nat i), c. split; [now apply in_enum_nat|]. split; [reflexivity|].
      rewrite (bs_eq _ c (in_enum_nat i c Hi)), Nat2Z.id. exact Hp.
  Qed.

  Lemma counted_codes d0 a0 d1 a1 bd0 ba0 bd1 ba1 c v : opt_tables d0 a0 d1 a1 bd0 ba0 bd1 ba1 ->
    counted c v -> codes (sel2 d0 d1 (c_qt c)) (sel2 bd0 bd1 (c_qt c)) v.
  Proof.
    intros (_ & _ & _ & _ & _ & Hsy) (j & c' & Hj & Eq & Hv). rewrite <- Eq. now apply (Hsy j c' Hj).
  Qed.

  Lemma path_imp ri (good good' : Z -> unitb -> Prop) us : forall t p,
    (forall p u, In u us -> good p u -> good' p u) ->
    path Z unitb ri 0 (fun _ u => zn (snd u) 0) good t p us -> path Z unitb ri 0 (fun _ u => zn (snd u) 0) good' t p us.
  Proof.
    induction us as [|u us IH]; intros t p H Hp; cbn [path] in *; [exact I|]. destruct Hp as [Hg Hp]. split.
    - apply H; [now left|exact Hg].
    - apply IH; [|exact Hp]. intros q v Hv. apply H. now right.
  Qed.

  Variable Hfit : im_width im * im_height im < 2 ^ (ubits P - 1).
  Variable H80 : qtype_8bit t0.
  Variable H81 : qtype_8bit t1.
  Variable Hprog : match e_prog e with Some s => s <= 33 | None => True end.
  Variable Hcov : covered_paths.

  Lemma opt_coded apps : (exists d0 a0 d1 a1 bd0 ba0 bd1 ba1, opt_tables d0 a0 d1 a1 bd0 ba0 bd1 ba1) ->
   exists d0 a0 d1 a1 bd0 ba0 bd1 ba1,
    coded P im pl F cs mh mv q0 q1 e bd0 ba0 bd1 ba1
      (body P op e cs im q0 q1 (bitw_new P)) apps (body_scans e cs) /\
    valid_tab d0 bd0 /\ valid_tab a0 ba0 /\ valid_tab d1 bd1 /\ valid_tab a1 ba1.
  Proof.
    intros (d0 & a0 & d1 & a1 & bd0 & ba0 & bd1 & ba1 & Hts). pose proof Hts as Hts'. destruct Hts' as (Ht & V0 & V1 & V2 & V3 & Hsy).
    exists d0, a0, d1, a1, bd0, ba0, bd1, ba1. split; [|split; [exact V0|split; [exact V1|split; [exact V2|exact V3]]]].
    assert (Hz0 : Forall (fun z => 0 < qt_get q0 z) ZIGZAG) by (apply qt_pos; [apply (eo_qt0 _ _ _ He)|exact H80]).
    assert (Hz1 : Forall (fun z => 0 < qt_get q1 z) ZIGZAG) by (apply qt_pos; [apply (eo_qt1 _ _ _ He)|exact H81]).
    pose proof (restart_range P im e t0 t1 He) as Hr1. pose proof (restart_nz P im e t0 t1 He) as Hr2.
    assert (Hu : forall i c u, nth_error cs i = Some c -> In u (uns i c) -> ci_of u = i /\ block_ok (snd u) /\ In (snd u) (bs (Z.of_nat i))).
    { intros i c u Hi Hu. destruct (units_ok im pl Him op F Hop cs mh mv Hcs Hn q0 q1 Hq0 Hq1 i c u Hi Hu) as [U1 U2].
      split; [exact U1|split; [exact U2|]]. rewrite (bs_eq _ c (in_enum_nat i c Hi)), Nat2Z.id. now apply in_map. }
    assert (Hp : match e_prog e with Some s => 2 <= s <= 33 | None => True end) by (pose proof Hprog'; pose proof Hprog; destruct (e_prog e); lia).
    unfold body, body_scans. rewrite Hopt. destruct (e_prog e) as [scans|] eqn:Ep.
    - eapply (progressive_coded P HP im pl Him op F Hop Hfit cs mh mv Hcs Hn q0 q1 Hq0 Hq1 Hz0 Hz1 e Hr1 Hr2
        d0 a0 d1 a1 bd0 ba0 bd1 ba1 V0 V1 (fun _ => V2) (fun _ => V3) scans apps Ep Hp Ht).
      + intros i c Hi. eapply path_imp; [|exact (Hcov i c Hi)]. intros s u Hin Hs.
        destruct (Hu i c u Hi Hin) as (U1 & U2 & U3). split; [exact U1|split; [exact U2|]].
        exact (counted_codes _ _ _ _ _ _ _ _ c _ Hts Hs).
      + intros i c b Hi Hb. apply Forall_forall. intros u Hin.
        destruct (Hu i c u Hi Hin) as (U1 & U2 & U3). split; [exact U1|split; [exact U2|]].
        apply Forall_forall. intros s Hs. apply (Hsy _ c (in_enum_nat i c Hi)) with (b := b) (blk := snd u); [|exact U3|exact Hs].
        unfold count_bands. now rewrite Ep.
    - cbn [orb].
      eapply (sequential_coded P HP im pl Him op F Hop Hfit cs mh mv Hcs Hn q0 q1 Hq0 Hq1 Hz0 Hz1 e Hr1 Hr2
        d0 a0 d1 a1 bd0 ba0 bd1 ba1 V0 V1 (fun _ => V2) (fun _ => V3) apps Ep Ht).
      intros i c Hi. eapply path_imp; [|exact (Hcov i c Hi)]. intros s u Hin Hs.
      destruct (Hu i c u Hi Hin) as (U1 & U2 & U3). split; [exact U1|split; [exact U2|split]].
      + exact (counted_codes _ _ _ _ _ _ _ _ c _ Hts Hs).
      + apply Forall_forall. intros s' Hs'. apply (Hsy _ c (in_enum_nat i c Hi)) with (b := (1, 64)) (blk := snd u); [|exact U3|exact Hs'].
        unfold count_bands. rewrite Ep. now left.
  Qed.

  Definition opt_decodes : Prop :=
    exists bytes j,
      emits (encode_image_internal P op e im) bytes tt /\ bytes_ok bytes /\
      decode bytes = Some j /\
      j_frame j = fr /\
      j_app j = file_apps e (im_color im) /\
      j_qt j = [Some (map (qt_get q0) ZIGZAG); Some (map (qt_get q1) ZIGZAG); None; None] /\
      j_ri j = restart_of e /\
      log_ok im pl F cs mh mv q0 q1 (j_log j) /\
    j_scans j = body_scans e cs.
  Lemma opt_decodes_intro : (exists d0 a0 d1 a1 bd0 ba0 bd1 ba1, opt_tables d0 a0 d1 a1 bd0 ba0 bd1 ba1) -> opt_decodes.
  Proof.
    intros T.
    destruct (opt_coded (file_apps e (im_color im)) T) as (d0 & a0 & d1 & a1 & bd0 & ba0 & bd1 & ba1 & Hc & V0 & V1 & V2 & V3).
    exact (internal_decodes P op e im pl F t0 t1 d0 a0 d1 a1 bd0 ba0 bd1 ba1 Him He Hc V0 V1 V2 V3).
  Qed.

  Theorem opt_round_trip : 63 * frame_blocks fr + 1 < 9227465 -> opt_decodes.
  Proof. intros Hsm. apply opt_decodes_intro, opt_tables_cases, Hsm. Qed.

  (** A panic of the table generation is a panic of the call. *)
  Lemma deep_panics : exec (tables_for P e cs (all_blocks im pl F cs mh mv q0 q1)) = ([], Panicked PIndex) ->
    exists bytes, exec (encode_image_internal P op e im) = (bytes, Panicked PIndex).
  Proof.
    clear Hprog Hcov H80 H81 Htot. intros T.
    assert (Hb : emits (encode_blocks P op cs im q0 q1) [] (all_blocks im pl F cs mh mv q0 q1))
      by exact (blocks_emits P HP im pl Him op F Hop Hfit cs mh mv Hcs Hn q0 q1 Hq0 Hq1 e std_chroma_dc std_chroma_ac tb_cdc tb_cac
                  (fun _ => V_cdc) (fun _ => V_cac)).
    assert (B : exists b, exec (body P op e cs im q0 q1 (bitw_new P)) = (b, Panicked PIndex)).
    { exists []. unfold body. rewrite Hopt. cbn [orb]. destruct (e_prog e);
        (eapply exec_after0; [exact Hb|]; apply exec_bind_panic; exact T). }
    pose proof (io_width _ _ Him). pose proof (io_height _ _ Him).
    unfold encode_image_internal.
    replace ((im_width im =? 0) || (im_height im =? 0)) with false by lia.
    rewrite (eo_qtypes _ _ _ He), (eo_comps _ _ _ He).
    change (index [t0; t1] 0) with (@Ret qtype t0). change (index [t0; t1] 1) with (@Ret qtype t1).
    cbn [bind app]. rewrite new_with_quality_ret. cbn [bind].
    eapply panic_after; [rewrite new_with_quality_ret; apply emits_ret|].
    eapply panic_after; [apply emits_write_all|].
    eapply panic_after; [apply emits_write_header|].
    destruct (adobe_dec P (im_color im) []) as (o1 & E1 & _).
    eapply panic_after; [exact E1|].
    destruct (segments_dec P (e_segments e) (eo_segs _ _ _ He) []) as (o2 & E2 & _).
    eapply panic_after; [exact E2|].
    destruct B as [b B]. exists b. rewrite exec_bind.
    match goal with |- context [exec ?m] => change m with (body P op e cs im q0 q1 (bitw_new P)) end.
    rewrite B. reflexivity.
  Qed.
  (** Images of any size: the file decodes, or the table generation panicked. *)
  Theorem opt_round_trip_or_panic : opt_decodes \/ exists bytes, exec (encode_image_internal P op e im) = (bytes, Panicked PIndex).
  Proof.
    destruct (proj1 opt_tables_cases) as [T|T]; [left; now apply opt_decodes_intro|right]. now apply deep_panics.
  Qed.
End Opt.
