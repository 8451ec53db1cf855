(** The writers a caller can pass to the encoder: the blanket implementation of [JfifWrite] for
    std::io::Write (src/writer.rs:58-65) and, without std, those for [&mut W] and [Vec<u8>]
    (src/writer.rs:41-56). *)
From Verif Require Export Rust.

(** One call of std::io::Write::write with a nonempty buffer: Ok(n), an error of kind Interrupted, another
    error.  [S] is the writer's state; the function is arbitrary. *)
Inductive answer := Wrote (n : nat) | Interrupted | Failed (e : error).
Definition writer (S : Type) := S -> list Z -> S * answer.

(** src/writer.rs:58-65, with std's default Write::write_all (library/std/src/io/mod.rs), as a relation: from
    state [s] with buffer [bs] it ends in [s'], the writer has taken the bytes [acc], and this is the result.
    (A writer that is interrupted for ever has no result.)  Simplification: io::ErrorKind::WriteZero,
    wrapped in EncodingError::IoError, is [SinkError 0]. *)
Inductive std_write_all {S} (w : writer S) : S -> list Z -> S -> list Z -> outcome unit -> Prop :=
| wa_done s : std_write_all w s [] s [] (Ok tt)
| wa_zero s bs s' : bs <> [] -> w s bs = (s', Wrote 0) -> std_write_all w s bs s' [] (Err (SinkError 0))
| wa_some s bs s' n s'' acc r : bs <> [] -> w s bs = (s', Wrote n) -> (1 <= n <= length bs)%nat ->
    std_write_all w s' (skipn n bs) s'' acc r -> std_write_all w s bs s'' (firstn n bs ++ acc) r
| wa_interrupted s bs s' s'' acc r : bs <> [] -> w s bs = (s', Interrupted) ->
    std_write_all w s' bs s'' acc r -> std_write_all w s bs s'' acc r
| wa_failed s bs s' e : bs <> [] -> w s bs = (s', Failed e) -> std_write_all w s bs s' [] (Err e)
(* [&buf[n..]] of a writer that claims to have written more than it was given *)
| wa_lied s bs s' n : bs <> [] -> w s bs = (s', Wrote n) -> (length bs < n)%nat ->
    std_write_all w s bs s' [] (Panicked PIndex).

(** A program that writes to it. *)
Inductive run_std {S A} (w : writer S) : prog A -> S -> S -> list Z -> outcome A -> Prop :=
| rs_ret a s : run_std w (Ret a) s s [] (Ok a)
| rs_throw e s : run_std w (Throw e) s s [] (Err e)
| rs_panic r s : run_std w (Panic r) s s [] (Panicked r)
| rs_write bs k s s1 acc1 s2 acc2 r : std_write_all w s bs s1 acc1 (Ok tt) -> run_std w (k None) s1 s2 acc2 r ->
    run_std w (WriteAll bs k) s s2 (acc1 ++ acc2) r
| rs_error bs k s s1 acc1 e s2 acc2 r : std_write_all w s bs s1 acc1 (Err e) -> run_std w (k (Some e)) s1 s2 acc2 r ->
    run_std w (WriteAll bs k) s s2 (acc1 ++ acc2) r
| rs_unwind bs k s s1 acc1 p : std_write_all w s bs s1 acc1 (Panicked p) ->
    run_std w (WriteAll bs k) s s1 acc1 (Panicked p).

(** src/writer.rs:48-54 [JfifWrite for Vec<u8>] *)
Definition vec_write_all (s : list Z) (bs : list Z) : list Z * option error := (s ++ bs, None).
(** src/writer.rs:41-46 [JfifWrite for &mut W] *)
Definition mut_write_all {S} (w : S -> list Z -> S * option error) (s : S) (bs : list Z) : S * option error := w s bs.

(** std's [Write for &mut [u8]] (library/std/src/io/impls.rs): the state is what was written and how many
    bytes are left in the slice. *)
Definition slice_writer : writer (list Z * nat) := fun s bs =>
  let n := Nat.min (snd s) (length bs) in ((fst s ++ firstn n bs, (snd s - n)%nat), Wrote n).
