(** Specification: what the encoder promises to an image buffer.  Used for properties C26 and C32. *)
From Verif Require Import Rust MImage SImage.
From Coq Require Import ZArith List Bool Lia.
Import ListNotations.
Open Scope Z_scope.

(** A call of fill_buffers is in order: the row exists, there are four buffers, and each of the buffers in
    use has room for a row within the capacity [cap] it was created with. *)
Definition call_in_order (cap : Z) (im : image) (y : Z) (bs : bufs) : Prop :=
  0 <= y < im_height im /\ length bs = 4%nat /\
  forall i, (Z.of_nat i < num_components (im_color im)) ->
    Z.of_nat (length (nth i bs [])) + im_width im <= cap.
Definition in_orderb (cap : Z) (im : image) (y : Z) (bs : bufs) : bool :=
  (0 <=? y) && (y <? im_height im) && (length bs =? 4)%nat &&
  forallb (fun b => Z.of_nat (length b) + im_width im <=? cap)
          (firstn (Z.to_nat (num_components (im_color im))) bs).

(** The image buffer that insists on it. *)
Definition strict (cap : Z) (im : image) : image :=
  {| im_color := im_color im; im_width := im_width im; im_height := im_height im;
     im_fill := fun y bs => if in_orderb cap im y bs then im_fill im y bs else Panic PUndefined |}.

Lemma in_orderb_ok cap im y bs : in_orderb cap im y bs = true <-> call_in_order cap im y bs.
Proof.
  unfold in_orderb, call_in_order. rewrite !andb_true_iff, Z.leb_le, Z.ltb_lt, Nat.eqb_eq, forallb_forall.
  assert (Hn : (Z.to_nat (num_components (im_color im)) <= 4)%nat /\ 0 <= num_components (im_color im)) by (destruct (im_color im); cbn; lia).
  set (n := num_components (im_color im)) in *. clearbody n. split.
  - intros [[[Ha Hb] Hl] HF]. repeat split; try assumption. intros i Hi. apply Z.leb_le, HF.
    replace (nth i bs []) with (nth i (firstn (Z.to_nat n) bs) []).
    + apply nth_In. rewrite firstn_length. lia.
    + rewrite <- (firstn_skipn (Z.to_nat n) bs) at 2. rewrite app_nth1; [reflexivity|]. rewrite firstn_length. lia.
  - intros ([Ha Hc] & Hl & HF). repeat split; try assumption. intros b Hb. apply Z.leb_le.
    apply (In_nth _ _ []) in Hb as (i & Hi & <-). rewrite firstn_length in Hi.
    replace (nth i (firstn (Z.to_nat n) bs) []) with (nth i bs []); [apply HF; lia|].
    rewrite <- (firstn_skipn (Z.to_nat n) bs) at 1. rewrite app_nth1; [reflexivity|]. rewrite firstn_length. lia.
Qed.
