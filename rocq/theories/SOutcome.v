(** The panics a program can end in, over all behaviours of the writer.  Specification only. *)
From Verif Require Import Rust.

(** Some writer (with some internal state, answering each write with success or an error) makes [m] panic for
    reason [r]. *)
Definition may_panic {A} (m : prog A) (r : panic_reason) : Prop :=
  exists (S : Type) (writer : S -> list Z -> S * option error) (s : S), snd (run writer m s) = Panicked r.

(** A slice index out of bounds; in builds with debug assertions also an arithmetic overflow and a failed
    debug_assert!. *)
Definition checked_panic (P : platform) (r : panic_reason) : Prop :=
  r = PIndex \/ (dbg P = true /\ (r = POverflow \/ r = PDebugAssert)).
