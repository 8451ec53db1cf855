(** Specification: finer and coarser quantization (property C68). *)
From Coq Require Import ZArith List.
From Verif Require Import T81 SApi.
Import ListNotations.
Open Scope Z_scope.

(** Every entry of both tables of [s1] is at most the entry of [s2], and none of those is above [limit]. *)
Definition finer (limit : Z) (s1 s2 : settings) : Prop :=
  forall d i, 0 <= d <= 1 -> 0 <= i < 64 -> quantizer s1 d i <= quantizer s2 d i <= limit.
(** No coefficient of [j1] has an opposite sign to that of [j2], and none is smaller in absolute value by more than
    [slack] (so with slack 0, no coefficient that is coded in [j2] is lost in [j1]). *)
Definition keeps (slack : Z) (j1 j2 : jpeg) : Prop :=
  forall ci co y x k, nth_error (fr_comps (j_frame j1)) ci = Some co ->
    0 <= y < blocks_high (j_frame j1) co -> 0 <= x < blocks_wide (j_frame j1) co -> 0 <= k < 64 ->
    exists v1 v2, coef j1 ci y x k = Some v1 /\ coef j2 ci y x k = Some v2 /\ 0 <= v1 * v2 /\ Z.abs v2 <= Z.abs v1 + slack.
(** Both runs succeed, with such files. *)
Definition runs_keep {A} (ok : A) (slack : Z) (run1 run2 : list Z * A) : Prop :=
  exists b1 b2 j1 j2, run1 = (b1, ok) /\ decode b1 = Some j1 /\ run2 = (b2, ok) /\ decode b2 = Some j2 /\ keeps slack j1 j2.
