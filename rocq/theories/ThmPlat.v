(** Builds with and without overflow checks and debug assertions: C39. *)
From Verif Require Import PRefine PRound ThmRound ThmHuff.

(** ** C39 *)
(** Whatever the configuration, the image (valid or not) and the behaviour of the writer: if the call
    does not panic in the checked build, the unchecked build makes the same writes in the same order
    and returns the same result.  [w] is the writer: from its state and the bytes of one [write_all]
    it gives its next state and the result it reports; keeping every call in the state makes the
    sequence of writes observable. *)
Theorem C39_release_refines_debug : forall u quality calls data w h c
    (S : Type) (writer : S -> list Z -> S * option error) s s' r,
  run writer (run_encode {| dbg := true; ubits := u |} quality calls data w h c) s = (s', r) ->
  (forall p, r <> Panicked p) ->
  run writer (run_encode {| dbg := false; ubits := u |} quality calls data w h c) s = (s', r).
Proof. intros until r. apply rf_run, rf_run_encode. Qed.

Theorem C39_release_refines_debug_image : forall u quality calls im
    (S : Type) (writer : S -> list Z -> S * option error) s s' r,
  run writer (run_encode_image {| dbg := true; ubits := u |} quality calls im) s = (s', r) ->
  (forall p, r <> Panicked p) ->
  run writer (run_encode_image {| dbg := false; ubits := u |} quality calls im) s = (s', r).
Proof. intros until r. apply rf_run, rf_run_encode_image. Qed.

(** A writer that logs its calls and fails at the fourth one. *)
Definition failing (s : list (list Z)) (bs : list Z) : list (list Z) * option error :=
  (s ++ [bs], if (length s =? 3)%nat then Some (SinkError 1) else None).
Example C39_case : exists s', run failing (run_encode debug64 60 ex_cfg ex_data 3 2 Rgb) [] = (s', Err (SinkError 1)).
Proof. eexists. vm_compute. reflexivity. Qed.
(** The hypothesis is needed: C03 has a call that panics only in the checked build. *)
