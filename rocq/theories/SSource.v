(** Specification: image buffers with internal state (property C60). *)
From Verif Require Import Rust MImage MSource.
From Coq Require Import ZArith List Bool Lia.
Import ListNotations.
Open Scope Z_scope.

(** A computation that does not touch the writer: it returns or panics. *)
Definition quiet {A} (m : prog A) : Prop := (exists a, m = Ret a) \/ (exists r, m = Panic r).
(** An implementation of the trait, which does not know the writer; it may panic, and answer as it likes. *)
Record quiet_source (src : source) : Prop := {
  qs_color : forall s, quiet (so_color src s);
  qs_width : forall s, quiet (so_width src s);
  qs_height : forall s, quiet (so_height src s);
  qs_fill : forall y bs s, quiet (so_fill src y bs s)
}.
(** The panics of its own methods. *)
Definition own_panic (src : source) (r : panic_reason) : Prop :=
  exists s, so_color src s = Panic r \/ so_width src s = Panic r \/ so_height src s = Panic r \/
            exists y bs, so_fill src y bs s = Panic r.

(** The source, in state [s], can serve the rows [order] of the image [im], one after the other and in this order;
    nothing is required of it when it is asked for rows in another order, or for more. *)
Definition serves (src : source) (s : so_state src) (im : image) (order : list Z) : Prop :=
  exists Ready : list Z -> so_state src -> Prop,
    Ready order s /\
    (forall todo s, Ready todo s -> exists s', so_color src s = Ret (im_color im, s') /\ Ready todo s') /\
    (forall todo s, Ready todo s -> exists s', so_width src s = Ret (im_width im, s') /\ Ready todo s') /\
    (forall todo s, Ready todo s -> exists s', so_height src s = Ret (im_height im, s') /\ Ready todo s') /\
    (forall y todo s bs, Ready (y :: todo) s -> length bs = 4%nat ->
       exists bs' s', im_fill im y bs = Ret bs' /\ length bs' = 4%nat /\ so_fill src y bs s = Ret (bs', s') /\ Ready todo s').

(** A value that keeps no state, as a source. *)
Definition stateless (im : image) : source :=
  {| so_state := unit;
     so_color := fun s => Ret (im_color im, s);
     so_width := fun s => Ret (im_width im, s);
     so_height := fun s => Ret (im_height im, s);
     so_fill := fun y bs s => let* bs := im_fill im y bs in Ret (bs, s) |}.

(** A reader that gets the rows of samples one after the other (a file, a pipe, another decoder) and keeps only
    the one it read last, with its number.  Asked for the next row it reads on; asked for the same row again it
    gives it again; asked for another row it panics. *)
Definition reader (color : jcolor) (w h : Z) : source :=
  let append (bs : bufs) (row : list (list Z)) : bufs := map (fun '(b, r) => b ++ r) (combine bs row) in
  {| so_state := Z * list (list Z) * list (list (list Z));
     so_color := fun s => Ret (color, s);
     so_width := fun s => Ret (w, s);
     so_height := fun s => Ret (h, s);
     so_fill := fun y bs '(last, row, rest) =>
       if y =? last then Ret (append bs row, (last, row, rest))
       else if y =? last + 1 then
         match rest with
         | r :: rest' => Ret (append bs r, (y, r, rest'))
         | [] => Panic PUnreachable
         end
       else Panic PUnreachable |}.
(** The image whose row [y] is [rows[y]], four channels each. *)
Definition rows_image (color : jcolor) (w h : Z) (rows : list (list (list Z))) : image :=
  {| im_color := color; im_width := w; im_height := h;
     im_fill := fun y bs => Ret (map (fun '(b, r) => b ++ r) (combine bs (nth (Z.to_nat y) rows []))) |}.
