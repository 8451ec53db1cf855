(** C51: error messages. *)
From Coq Require Import ZArith List Bool String Ascii Lia ZifyBool ZifyNat.
From Verif Require Import Rust MImage MEncoder MApi MError SError SApi PRound ThmApi ThmRound.
Import ListNotations.
Open Scope Z_scope.

(** ** Decimal numbers *)
Lemma digit_value_digit d : 0 <= d < 10 -> digit_value (digit d) = Some d.
Proof.
  intros H. assert (C : d = 0 \/ d = 1 \/ d = 2 \/ d = 3 \/ d = 4 \/ d = 5 \/ d = 6 \/ d = 7 \/ d = 8 \/ d = 9) by lia.
  repeat (destruct C as [->|C]; [reflexivity|]). subst d. reflexivity.
Qed.
Lemma digit_zero d : 0 <= d < 10 -> digit d = "0"%char -> d = 0.
Proof. intros H E. apply (f_equal digit_value) in E. rewrite digit_value_digit in E by exact H. injection E as E. exact E. Qed.

Lemma fmt_read : forall fuel n acc, 0 <= n < 10 ^ Z.of_nat fuel -> read_decimal 0 (fmt_loop fuel n acc) = read_decimal n acc.
Proof.
  induction fuel as [|fuel IH]; intros n acc H.
  - change (10 ^ Z.of_nat 0) with 1 in H. assert (n = 0) by lia. subst n. reflexivity.
  - cbn [fmt_loop]. destruct (n <? 10) eqn:E.
    + cbn [read_decimal]. rewrite digit_value_digit by lia. f_equal.
    + rewrite IH.
      * cbn [read_decimal]. rewrite digit_value_digit by (apply Z.mod_pos_bound; lia). f_equal.
        pose proof (Z.div_mod n 10 ltac:(lia)). lia.
      * rewrite Nat2Z.inj_succ, Z.pow_succ_r in H by lia. split; [apply Z.div_pos; lia|apply Z.div_lt_upper_bound; lia].
Qed.
Lemma fmt_first : forall fuel n acc, 0 < n < 10 ^ Z.of_nat fuel -> exists c r, fmt_loop fuel n acc = String c r /\ c <> "0"%char.
Proof.
  induction fuel as [|fuel IH]; intros n acc H; [change (10 ^ Z.of_nat 0) with 1 in H; lia|].
  cbn [fmt_loop]. destruct (n <? 10) eqn:E.
  - exists (digit n), acc. split; [reflexivity|]. intros X. apply digit_zero in X; lia.
  - apply IH. rewrite Nat2Z.inj_succ, Z.pow_succ_r in H by lia. split; [apply Z.div_str_pos; lia|apply Z.div_lt_upper_bound; lia].
Qed.
Lemma fmt_decimal n : 0 <= n < 2 ^ 64 -> decimal (fmt_unsigned n) n.
Proof.
  intros H. assert (B : 2 ^ 64 < 10 ^ Z.of_nat 40) by reflexivity. unfold decimal, fmt_unsigned.
  assert (R : read_decimal 0 (fmt_loop 40 n EmptyString) = Some n) by (rewrite fmt_read by lia; reflexivity).
  destruct (Z.eq_dec n 0) as [->|N].
  - split; [discriminate|]. split; [exact R|]. intros r E. injection E as <-. reflexivity.
  - destruct (fmt_first 40 n EmptyString ltac:(lia)) as (c & r & E & C). rewrite E in *. split; [discriminate|]. split; [exact R|].
    intros r' X. injection X as -> _. now contradiction C.
Qed.

(** Only one text is the decimal form of a number, and it contains digits only. *)
Lemma app_assoc_s (a b c : string) : ((a ++ b) ++ c)%string = (a ++ b ++ c)%string.
Proof. induction a as [|x a IH]; [reflexivity|]. cbn. now rewrite IH. Qed.

(** A number followed by something that does not begin with a digit can be split in one way only. *)
Definition ends_number (t : string) : Prop := match t with EmptyString => True | String c _ => digit_value c = None end.
Lemma split_number : forall a a' n n' m m' r r', read_decimal m a = Some n -> read_decimal m' a' = Some n' ->
  ends_number r -> ends_number r' -> (a ++ r)%string = (a' ++ r')%string -> a = a' /\ r = r'.
Proof.
  induction a as [|c a IH]; intros [|c' a'] n n' m m' r r' H H' E E' X; cbn [append] in X.
  - auto.
  - subst r. cbn [ends_number] in E. cbn [read_decimal] in H'. rewrite E in H'. discriminate.
  - subst r'. cbn [ends_number] in E'. cbn [read_decimal] in H. rewrite E' in H. discriminate.
  - injection X as <- X. cbn [read_decimal] in H, H'. destruct (digit_value c) as [d|]; [|discriminate].
    destruct (IH a' n n' _ _ r r' H H' E E' X) as [-> ->]. auto.
Qed.
Lemma append_inj (p a b : string) : (p ++ a)%string = (p ++ b)%string -> a = b.
Proof. induction p as [|c p IH]; cbn [append]; [auto|]. intros X. injection X as X. auto. Qed.

(** ** C51 *)
(** The message of every error says which error it is, with its numbers in decimal. *)
Theorem C51_message : forall text e, numbers_ok e -> says (display text e) e.
Proof.
  intros text e H. destruct e; cbn [says display numbers_ok] in *; try exact I.
  - eexists. split; [apply fmt_decimal, H|reflexivity].
  - eexists. split; [apply fmt_decimal, H|reflexivity].
  - eexists. split; [apply fmt_decimal, H|reflexivity].
  - destruct H. eexists. eexists. split; [apply fmt_decimal; eassumption|]. split; [apply fmt_decimal; eassumption|reflexivity].
  - destruct H. eexists. eexists. split; [apply fmt_decimal; eassumption|]. split; [apply fmt_decimal; eassumption|reflexivity].
Qed.

(** What is said determines the error: from the message of an error that does not come from the writer, the kind and
    the numbers can be read back. *)
Theorem C51_readable : forall t e e', says t e -> says t e' -> (forall p, e <> SinkError p) -> (forall p, e' <> SinkError p) -> e = e'.
Proof.
  intros t e e' H H' N N'.
  destruct e; [| | | | |now destruct (N payload)]; (destruct e'; [| | | | |now destruct (N' payload)]); cbn [says] in H, H';
    repeat match goal with
           | H : exists _, _ |- _ => destruct H
           | H : _ /\ _ |- _ => destruct H
           end; subst t;
    repeat match goal with X : (_ ++ _)%string = (_ ++ _)%string |- _ => cbn in X; discriminate X end;
    match goal with X : (_ ++ _)%string = (_ ++ _)%string |- _ => apply append_inj in X; rename X into X0 end;
    repeat match goal with D : decimal _ _ |- _ => destruct D as (_ & D & _) end.
  - subst. congruence.
  - subst. congruence.
  - subst. congruence.
  - match goal with X0 : (?a ++ ?r)%string = (?a' ++ ?r')%string, H : read_decimal 0 ?a = Some _, H' : read_decimal 0 ?a' = Some _ |- _ =>
      destruct (split_number a a' _ _ _ _ r r' H H' eq_refl eq_refl X0) as [-> X1] end.
    apply append_inj in X1. subst. congruence.
  - match goal with X0 : (?a ++ ?r)%string = (?a' ++ ?r')%string, H : read_decimal 0 ?a = Some _, H' : read_decimal 0 ?a' = Some _ |- _ =>
      destruct (split_number a a' _ _ _ _ r r' H H' eq_refl eq_refl X0) as [-> X1] end.
    apply append_inj in X1. subst. congruence.
Qed.

(** An error of the writer is shown as the writer's own error, and is the only error with a source. *)
Theorem C51_source : forall text is_io e,
  (forall p, e = SinkError p -> display text e = text p /\ source is_io e = if is_io p then Some p else None) /\
  ((forall p, e <> SinkError p) -> source is_io e = None).
Proof.
  intros text is_io e. split; [intros p ->; auto|]. intros N. destruct e; try reflexivity. now destruct (N payload).
Qed.

(** The messages of the calls that are rejected: the numbers are the caller's. *)
Theorem C51_app_segment : forall text nr data e err, is_u8 nr -> Z.of_nat (List.length data) < 2 ^ 63 ->
  snd (add_app_segment nr data e) = Some err ->
  says (display text err) (if (1 <=? nr) && (nr <=? 15) then AppSegmentTooLarge (Z.of_nat (List.length data)) else InvalidAppSegment nr).
Proof.
  intros text nr data e err Hn Hl. rewrite C09_contract by exact Hn. unfold is_u8 in Hn.
  assert (B : 256 < 2 ^ 64 /\ 2 ^ 63 < 2 ^ 64) by (split; reflexivity).
  destruct ((1 <=? nr) && (nr <=? 15)).
  - destruct (Z.of_nat (List.length data) <=? 65533); cbn [snd]; intros E; [discriminate|]. injection E as <-. apply C51_message. cbn [numbers_ok]. lia.
  - cbn [snd]. intros E. injection E as <-. apply C51_message. cbn [numbers_ok]. lia.
Qed.
Theorem C51_icc : forall text P data e e' err, Z.of_nat (List.length data) < 2 ^ 63 ->
  add_icc_profile P data e = Ret (e', Some err) ->
  says (display text err) (IccTooLarge (Z.of_nat (List.length data))).
Proof.
  intros text P data e e' err Hl E. assert (B : 2 ^ 63 < 2 ^ 64) by reflexivity.
  destruct (Z_le_gt_dec (Z.of_nat (List.length data)) 16641826) as [L|L].
  - destruct (C11_actual_limit P data e L) as (e2 & E2). rewrite E2 in E. discriminate E.
  - rewrite (C10_too_large P data e) in E by lia. injection E as _ <-. apply C51_message. cbn [numbers_ok]. lia.
Qed.
Theorem C51_encode : forall text P quality calls data w h c bytes err, plat_ok P ->
  Forall call_wf calls -> is_u16 w -> is_u16 h -> Z.of_nat (List.length data) < 2 ^ 63 -> w * h * spec_bpp c < 2 ^ ubits P ->
  exec (run_encode P quality calls data w h c) = (bytes, Err err) ->
  bytes = [] /\
  says (display text err) (if Z.of_nat (List.length data) <? w * h * spec_bpp c
                           then BadImageData (Z.of_nat (List.length data)) (w * h * spec_bpp c) else ZeroImageDimensions w h).
Proof.
  intros text P quality calls data w h c bytes err HP C Hw Hh Hl Hfit E. unfold is_u16 in Hw, Hh.
  assert (B : 2 ^ 63 < 2 ^ 64 /\ 65536 < 2 ^ 64 /\ 2 ^ ubits P <= 2 ^ 64).
  { split; [reflexivity|]. split; [reflexivity|]. destruct HP as [-> | ->]; [discriminate|apply Z.le_refl]. }
  destruct B as (B1 & B2 & B3). assert (Hc : 1 <= spec_bpp c) by (destruct c; cbn; lia).
  assert (Hp : 0 <= w * h) by (apply Z.mul_nonneg_nonneg; lia). assert (Hp' : 0 <= w * h * spec_bpp c) by (apply Z.mul_nonneg_nonneg; lia).
  destruct (Z.of_nat (List.length data) <? w * h * spec_bpp c) eqn:L.
  - apply Z.ltb_lt in L. rewrite (C08_bad_data P quality calls data w h c C Hw Hh Hfit L) in E. injection E as <- <-.
    split; [reflexivity|]. apply C51_message. cbn [numbers_ok]. lia.
  - apply Z.ltb_ge in L. destruct (Z.eq_dec w 0) as [Z0|N0]; [|destruct (Z.eq_dec h 0) as [Z1|N1]].
    + rewrite (C08_zero_dimension P quality calls data w h c C Hw Hh Hfit L (or_introl Z0)) in E. injection E as <- <-.
      split; [reflexivity|]. apply C51_message. cbn [numbers_ok]. lia.
    + rewrite (C08_zero_dimension P quality calls data w h c C Hw Hh Hfit L (or_intror Z1)) in E. injection E as <- <-.
      split; [reflexivity|]. apply C51_message. cbn [numbers_ok]. lia.
    + exfalso. exact (C08_otherwise P quality calls data w h c C Hw Hh Hfit L N0 N1 bytes err E).
Qed.

(** ** Concrete cases *)
Example C51_case_data : match exec (run_encode debug64 90 [] [1; 2; 3] 100 70 Rgb) with
  | (bytes, Err e) => bytes = [] /\ display (fun _ => EmptyString) e = "Image data too small for dimensions and color_type: 3 need at least 21000"%string
  | _ => False
  end.
Proof. vm_compute. split; reflexivity. Qed.
Example C51_case_app : forall e, option_map (display (fun _ => EmptyString)) (snd (add_app_segment 16 [] e)) = Some "Invalid app segment number: 16"%string.
Proof. intros e. reflexivity. Qed.
Example C51_case_dim : display (fun _ => EmptyString) (ZeroImageDimensions 0 65535) = "Image dimensions must be non zero: 0x65535"%string.
Proof. vm_compute. reflexivity. Qed.
