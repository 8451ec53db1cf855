(** Colour conversion against the JFIF formulas over the reals: property C22. *)
From Verif Require Import PPixel SImage.
From Coq Require Import ZifyBool ZifyNat Reals Lra.
Local Ltac Zify.zify_post_hook ::= Z.div_mod_to_equations.

(** ITU-T T.871 section 7 (JFIF): Y = 0.299 R + 0.587 G + 0.114 B, CB = (B - Y)/1.772 + 128,
    CR = (R - Y)/1.402 + 128. *)
Local Open Scope R_scope.
Definition jfif_y (r g b : R) : R := 299/1000 * r + 587/1000 * g + 114/1000 * b.
Definition jfif_cb (r g b : R) : R := (b - jfif_y r g b) / (1772/1000) + 128.
Definition jfif_cr (r g b : R) : R := (r - jfif_y r g b) / (1402/1000) + 128.
Local Close Scope R_scope.

Lemma y_bound r g b : 0 <= r <= 255 -> 0 <= g <= 255 -> 0 <= b <= 255 ->
  - 502 * 1000 <= 1000 * 1000 * spec_y r g b - 1000 * (299 * r + 587 * g + 114 * b) <= 502 * 1000.
Proof. intros. unfold spec_y. lia. Qed.
Lemma cb_bound r g b : 0 <= r <= 255 -> 0 <= g <= 255 -> 0 <= b <= 255 ->
  - 503 * 1772 <= 1000 * 1772 * (spec_cb r g b - 128) - 1000 * (1000 * b - (299 * r + 587 * g + 114 * b)) <= 503 * 1772.
Proof. intros. unfold spec_cb. lia. Qed.
Lemma cr_bound r g b : 0 <= r <= 255 -> 0 <= g <= 255 -> 0 <= b <= 255 ->
  - 503 * 1402 <= 1000 * 1402 * (spec_cr r g b - 128) - 1000 * (1000 * r - (299 * r + 587 * g + 114 * b)) <= 503 * 1402.
Proof. intros. unfold spec_cr. lia. Qed.

(** Every channel of the model's conversion is within 0.503 of the exact value (0.5 from rounding to an
    integer, 0.003 from the 16-bit coefficients), inside 0..255 before the cast to u8. *)
Theorem C22_rgb_to_ycbcr : forall r g b y cb cr,
  0 <= r <= 255 -> 0 <= g <= 255 -> 0 <= b <= 255 -> rgb_to_ycbcr r g b = (y, cb, cr) ->
  (0 <= y <= 255 /\ 0 <= cb <= 255 /\ 0 <= cr <= 255) /\
  (Rabs (IZR y - jfif_y (IZR r) (IZR g) (IZR b)) <= 502/1000 /\
   Rabs (IZR cb - jfif_cb (IZR r) (IZR g) (IZR b)) <= 503/1000 /\
   Rabs (IZR cr - jfif_cr (IZR r) (IZR g) (IZR b)) <= 503/1000)%R.
Proof.
  intros r g b y cb cr Hr Hg Hb E. rewrite rgb_to_ycbcr_spec in E by assumption. inversion E; subst; clear E.
  split.
  - pose proof (ycc_range r g b 0 Hr Hg Hb). pose proof (ycc_range r g b 1 Hr Hg Hb).
    pose proof (ycc_range r g b 2 Hr Hg Hb). repeat split; apply H || apply H0 || apply H1.
  - pose proof (y_bound r g b Hr Hg Hb) as [Y1 Y2]. pose proof (cb_bound r g b Hr Hg Hb) as [B1 B2].
    pose proof (cr_bound r g b Hr Hg Hb) as [R1 R2].
    apply IZR_le in Y1, Y2, B1, B2, R1, R2.
    repeat (rewrite minus_IZR in Y1 || rewrite plus_IZR in Y1 || rewrite mult_IZR in Y1).
    repeat (rewrite minus_IZR in Y2 || rewrite plus_IZR in Y2 || rewrite mult_IZR in Y2).
    repeat (rewrite minus_IZR in B1 || rewrite plus_IZR in B1 || rewrite mult_IZR in B1).
    repeat (rewrite minus_IZR in B2 || rewrite plus_IZR in B2 || rewrite mult_IZR in B2).
    repeat (rewrite minus_IZR in R1 || rewrite plus_IZR in R1 || rewrite mult_IZR in R1).
    repeat (rewrite minus_IZR in R2 || rewrite plus_IZR in R2 || rewrite mult_IZR in R2).
    assert (D1 : forall x : R, (x / (1772 / 1000) = x * 1000 / 1772)%R) by (intros x; field).
    assert (D2 : forall x : R, (x / (1402 / 1000) = x * 1000 / 1402)%R) by (intros x; field).
    unfold jfif_cb, jfif_cr, jfif_y. rewrite D1, D2.
    repeat split; apply Rabs_le; lra.
Qed.

(** No clamping is ever needed: the values before the cast to u8 are in 0..255, and all partial sums fit
    i32 by a wide margin (so the plain integer arithmetic of the model is exact). *)
Theorem C22_no_overflow : forall r g b, 0 <= r <= 255 -> 0 <= g <= 255 -> 0 <= b <= 255 ->
  rgb_to_ycbcr r g b
  = ((19595 * r + 38470 * g + 7471 * b + 32767) / 65536,
     (-11059 * r - 21709 * g + 32768 * b + 8388608 + 32767) / 65536,
     (32768 * r - 27439 * g - 5329 * b + 8388608 + 32767) / 65536) /\
  Forall (fun t => - 2 ^ 31 <= t < 2 ^ 31)
    [19595 * r; 38470 * g; 7471 * b; 19595 * r + 38470 * g; 19595 * r + 38470 * g + 7471 * b;
     19595 * r + 38470 * g + 7471 * b + 32767;
     -11059 * r; 21709 * g; 32768 * b; -11059 * r - 21709 * g; -11059 * r - 21709 * g + 32768 * b;
     -11059 * r - 21709 * g + 32768 * b + 8388608; -11059 * r - 21709 * g + 32768 * b + 8388608 + 32767;
     32768 * r; 27439 * g; 5329 * b; 32768 * r - 27439 * g; 32768 * r - 27439 * g - 5329 * b;
     32768 * r - 27439 * g - 5329 * b + 8388608; 32768 * r - 27439 * g - 5329 * b + 8388608 + 32767].
Proof.
  intros r g b Hr Hg Hb. split; [now apply rgb_to_ycbcr_spec|]. repeat (apply Forall_cons; [lia|]). apply Forall_nil.
Qed.

(** Greys have no colour. *)
Theorem C22_grey : forall v, 0 <= v <= 255 -> rgb_to_ycbcr v v v = (v, 128, 128).
Proof.
  intros v Hv. rewrite rgb_to_ycbcr_spec by assumption. unfold spec_y, spec_cb, spec_cr. f_equal; [f_equal|]; lia.
Qed.

(** CMYK to YCCK: the same conversion applied to C, M, Y; K is inverted. *)
Theorem C22_cmyk_to_ycck : forall c m ye k y cb cr k',
  0 <= c <= 255 -> 0 <= m <= 255 -> 0 <= ye <= 255 -> cmyk_to_ycck c m ye k = (y, cb, cr, k') ->
  k' = 255 - k /\
  (Rabs (IZR y - jfif_y (IZR c) (IZR m) (IZR ye)) <= 502/1000 /\
   Rabs (IZR cb - jfif_cb (IZR c) (IZR m) (IZR ye)) <= 503/1000 /\
   Rabs (IZR cr - jfif_cr (IZR c) (IZR m) (IZR ye)) <= 503/1000)%R.
Proof.
  intros c m ye k y cb cr k' Hc Hm Hy E. unfold cmyk_to_ycck in E.
  destruct (rgb_to_ycbcr c m ye) as [[y0 cb0] cr0] eqn:E1. inversion E; subst. split; [reflexivity|].
  apply (C22_rgb_to_ycbcr c m ye); assumption.
Qed.

Example C22_case : rgb_to_ycbcr 200 30 77 = (86, 123, 209).
Proof. vm_compute. reflexivity. Qed.
