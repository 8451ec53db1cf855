(** Specification: which rows of the image the encoder asks for, and what it means that one run is another one
    with log entries put in (property C26). *)
From Verif Require Import Rust MImage SApi T81.
From Coq Require Import ZArith List Bool Lia Sorting.Sorted.
Import ListNotations.
Open Scope Z_scope.

(** Every row once, then the last one again until the number of rows is a multiple of the MCU height. *)
Definition row_order (s : settings) (color : jcolor) (w h : Z) : list Z :=
  let f := frame_for s color w h in
  let mcu := 8 * vmax f in
  map (fun y => Z.min (h - 1) y) (map Z.of_nat (seq 0 (Z.to_nat ((h + mcu - 1) / mcu * mcu)))).

Lemma row_order_below s color w h y : 1 <= h -> In y (row_order s color w h) -> 0 <= y < h.
Proof.
  intros Hh H. apply in_map_iff in H as (k & <- & H). apply in_map_iff in H as (i & <- & H). lia.
Qed.
Lemma row_order_sorted s color w h : Sorted Z.le (row_order s color w h).
Proof.
  unfold row_order. cbv zeta. generalize (Z.to_nat ((h + 8 * vmax (frame_for s color w h) - 1) / (8 * vmax (frame_for s color w h)) * (8 * vmax (frame_for s color w h)))).
  intros n. generalize 0%nat as a. induction n as [|n IH]; intros a; cbn [seq map]; constructor; [apply IH|].
  destruct n; cbn [seq map]; constructor. lia.
Qed.
Lemma row_order_all s color w h y : 1 <= vmax (frame_for s color w h) -> 0 <= y < h -> In y (row_order s color w h).
Proof.
  intros Hv Hy. apply in_map_iff. exists y. split; [lia|]. apply in_map_iff. exists (Z.to_nat y). split; [lia|].
  apply in_seq. set (m := 8 * vmax (frame_for s color w h)). assert (0 < m) by (unfold m; lia).
  pose proof (Z.div_mod (h + m - 1) m ltac:(lia)). pose proof (Z.mod_pos_bound (h + m - 1) m ltac:(lia)).
  assert (h <= (h + m - 1) / m * m) by nia. lia.
Qed.

(** [shuffle a b c]: [c] consists of the elements of [a] and of [b], each in their order. *)
Inductive shuffle {A} : list A -> list A -> list A -> Prop :=
| sh_nil : shuffle [] [] []
| sh_l x a b c : shuffle a b c -> shuffle (x :: a) b (x :: c)
| sh_r x a b c : shuffle a b c -> shuffle a (x :: b) (x :: c).

(** The image buffer that reports each call of fill_buffers: it first puts [tok y] into the output. *)
Definition reporting (tok : Z -> list Z) (im : image) : image :=
  {| im_color := im_color im; im_width := im_width im; im_height := im_height im;
     im_fill := fun y bs => WriteAll (tok y) (fun _ => im_fill im y bs) |}.

(** The room in each sample buffer: the padded width times the rows of one MCU, or times all rows when the
    scans are not interleaved. *)
Definition reserved (s : settings) (color : jcolor) (w h : Z) : Z :=
  let f := frame_for s color w h in
  let padded n m := (n + m - 1) / m * m in
  let '(fh, fv) := factors (s_sampling s) in
  padded w (8 * hmax f) *
  (if match s_scans s with Some _ => false | None => negb (s_optimize s) && (fh <=? 2) && (fv <=? 2) end
   then 8 * vmax f else padded h (8 * vmax f)).
