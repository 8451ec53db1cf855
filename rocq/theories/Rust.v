(** Semantics of the Rust fragment used by jpeg-encoder.

    - machine integers are [Z] values; every operation that can overflow goes through [ck_u] /
      [ck_s], which panic when the build has overflow checks ([dbg = true], the `dev` profile) and
      wrap otherwise (the `release` profile);
    - a program is an interaction tree: it returns, returns [Err], panics, or calls
      [JfifWrite::write_all] on the sink and continues with the result of that call. *)
From Coq Require Export ZArith List Lia Bool.
Export ListNotations.
Global Open Scope Z_scope.

(** Build/target parameters: overflow checks + debug assertions, and usize::BITS. *)
Record platform := { dbg : bool; ubits : Z }.
Definition plat_ok (P : platform) : Prop := ubits P = 32 \/ ubits P = 64.

(** src/error.rs:7-28 — EncodingError.  [IoError] and [Write] both carry what the sink reported;
    they are merged in [SinkError] with an opaque payload. *)
Inductive error :=
| InvalidAppSegment (nr : Z)
| AppSegmentTooLarge (len : Z)
| IccTooLarge (len : Z)
| BadImageData (length required : Z)
| ZeroImageDimensions (width height : Z)
| SinkError (payload : Z).

(** Why a panic happened (index out of bounds, arithmetic overflow with checks on, assert!,
    debug_assert!, unreachable!).  [PFuel] marks exhausted loop fuel of the model; it is never a
    result of the theorems about success.  [PUndefined] is no panic but undefined behaviour: a read or
    write outside an allocation in the unsafe code of src/avx2/ycbcr.rs. *)
Inductive panic_reason := PIndex | POverflow | PAssert | PDebugAssert | PUnreachable | PFuel | PUndefined.

Inductive prog (A : Type) : Type :=
| Ret (a : A)
| Throw (e : error)
| Panic (r : panic_reason)
| WriteAll (bs : list Z) (k : option error -> prog A).
Arguments Ret {A} a.
Arguments Throw {A} e.
Arguments Panic {A} r.
Arguments WriteAll {A} bs k.

Fixpoint bind {A B} (m : prog A) (f : A -> prog B) : prog B :=
  match m with
  | Ret a => f a
  | Throw e => Throw e
  | Panic r => Panic r
  | WriteAll bs k => WriteAll bs (fun r => bind (k r) f)
  end.

Notation "'let*' x ':=' m 'in' k" := (bind m (fun x => k))
  (at level 200, x name, m at level 100, k at level 200, right associativity).
Notation "'let*' ' p ':=' m 'in' k" := (bind m (fun p => k))
  (at level 200, p strict pattern, m at level 100, k at level 200, right associativity).
Notation "m ';;;' k" := (bind m (fun _ => k)) (at level 190, right associativity).

(** [w.write_all(buf)?] *)
Definition write_all (bs : list Z) : prog unit :=
  WriteAll bs (fun r => match r with None => Ret tt | Some e => Throw e end).

(** [for x in l { a = f(a, x) }] *)
Fixpoint foldM {A X} (f : A -> X -> prog A) (l : list X) (a : A) : prog A :=
  match l with
  | [] => Ret a
  | x :: l' => bind (f a x) (fun a' => foldM f l' a')
  end.

Fixpoint mapM {A X} (f : X -> prog A) (l : list X) : prog (list A) :=
  match l with
  | [] => Ret []
  | x :: l' => bind (f x) (fun y => bind (mapM f l') (fun ys => Ret (y :: ys)))
  end.

(** Outcome of a run. *)
Inductive outcome (A : Type) := Ok (a : A) | Err (e : error) | Panicked (r : panic_reason).
Arguments Ok {A} a.
Arguments Err {A} e.
Arguments Panicked {A} r.

(** Running against an arbitrary sink: [w s bs] is the sink's [write_all]; it yields the new sink
    state and possibly an error. *)
Fixpoint run {S A} (w : S -> list Z -> S * option error) (p : prog A) (s : S) : S * outcome A :=
  match p with
  | Ret a => (s, Ok a)
  | Throw e => (s, Err e)
  | Panic r => (s, Panicked r)
  | WriteAll bs k => let '(s', r) := w s bs in run w (k r) s'
  end.

(** Running against [Vec<u8>] (src/writer.rs:50-56): writes always succeed and append. *)
Fixpoint exec {A} (p : prog A) : list Z * outcome A :=
  match p with
  | Ret a => ([], Ok a)
  | Throw e => ([], Err e)
  | Panic r => ([], Panicked r)
  | WriteAll bs k => let '(o, r) := exec (k None) in (bs ++ o, r)
  end.

(** ** Machine integers *)
Definition wrap_u (n z : Z) : Z := z mod 2 ^ n.
Definition wrap_s (n z : Z) : Z := (z + 2 ^ (n - 1)) mod 2 ^ n - 2 ^ (n - 1).

(** Result of an arithmetic operation at unsigned/signed type of [n] bits. *)
Definition ck_u (P : platform) (n z : Z) : prog Z :=
  if (0 <=? z) && (z <? 2 ^ n) then Ret z
  else if dbg P then Panic POverflow else Ret (wrap_u n z).
Definition ck_s (P : platform) (n z : Z) : prog Z :=
  if (- 2 ^ (n - 1) <=? z) && (z <? 2 ^ (n - 1)) then Ret z
  else if dbg P then Panic POverflow else Ret (wrap_s n z).
Definition ck_usize (P : platform) (z : Z) : prog Z := ck_u P (ubits P) z.

(** [x << s], [x >> s] at an unsigned [n]-bit type: the shift amount is checked (masked in
    release); bits shifted out are lost silently. *)
Definition shl_u (P : platform) (n x s : Z) : prog Z :=
  if (0 <=? s) && (s <? n) then Ret (wrap_u n (x * 2 ^ s))
  else if dbg P then Panic POverflow else Ret (wrap_u n (x * 2 ^ (s mod n))).
Definition shr_u (P : platform) (n x s : Z) : prog Z :=
  if (0 <=? s) && (s <? n) then Ret (x / 2 ^ s)
  else if dbg P then Panic POverflow else Ret (x / 2 ^ (s mod n)).

Definition assert_ (b : bool) : prog unit := if b then Ret tt else Panic PAssert.
Definition debug_assert (P : platform) (b : bool) : prog unit :=
  if b || negb (dbg P) then Ret tt else Panic PDebugAssert.

(** ** Arrays and slices *)
(** [l[i]] with bounds check. *)
Definition index {A} (l : list A) (i : Z) : prog A :=
  if 0 <=? i then match nth_error l (Z.to_nat i) with Some a => Ret a | None => Panic PIndex end
  else Panic PIndex.

(** [l[i]] for fixed-size arrays where the index is in range by construction. *)
Definition zn (l : list Z) (i : Z) : Z := nth (Z.to_nat i) l 0.

Fixpoint upd {A} (l : list A) (i : nat) (v : A) : list A :=
  match l, i with
  | [], _ => []
  | _ :: l', O => v :: l'
  | x :: l', S i' => x :: upd l' i' v
  end.

(** [0..n] *)
Definition zrange (n : Z) : list Z := map Z.of_nat (seq 0 (Z.to_nat n)).
(** [a..b] *)
Definition zseg (a b : Z) : list Z := map (fun k => a + k) (zrange (b - a)).
Definition zlen {A} (l : list A) : Z := Z.of_nat (length l).
Definition enumerate {A} (l : list A) : list (Z * A) := combine (zrange (zlen l)) l.
(** [&l[a..b]], bounds assumed *)
Definition slice {A} (l : list A) (a b : Z) : list A :=
  firstn (Z.to_nat (b - a)) (skipn (Z.to_nat a) l).
(** [value.to_be_bytes()] for an [8*n]-bit word *)
Fixpoint be_bytes (n : nat) (v : Z) : list Z :=
  match n with
  | O => []
  | S n' => (v / 2 ^ (8 * Z.of_nat n')) mod 256 :: be_bytes n' v
  end.
