(** What the text of an error says.  Specification only. *)
From Coq Require Import ZArith List Bool String Ascii.
From Verif Require Import Rust.
Import ListNotations.
Open Scope Z_scope.

(** Reading a decimal number, most significant digit first. *)
Definition digit_value (c : ascii) : option Z :=
  let n := Z.of_nat (nat_of_ascii c) in if (48 <=? n) && (n <=? 57) then Some (n - 48) else None.
Fixpoint read_decimal (so_far : Z) (t : string) : option Z :=
  match t with
  | EmptyString => Some so_far
  | String c t => match digit_value c with Some d => read_decimal (10 * so_far + d) t | None => None end
  end.
(** [t] is the number [n] in decimal: digits only, no superfluous zero in front. *)
Definition decimal (t : string) (n : Z) : Prop :=
  t <> EmptyString /\ read_decimal 0 t = Some n /\ (forall r, t = String "0" r -> r = EmptyString).

(** The messages. *)
Definition says (t : string) (e : error) : Prop :=
  match e with
  | InvalidAppSegment nr => exists a, decimal a nr /\ t = ("Invalid app segment number: " ++ a)%string
  | AppSegmentTooLarge n => exists a, decimal a n /\ t = ("App segment exceeds maximum allowed data length of 65533: " ++ a)%string
  | IccTooLarge n => exists a, decimal a n /\ t = ("ICC profile exceeds maximum allowed data length: " ++ a)%string
  | BadImageData n m => exists a b, decimal a n /\ decimal b m /\
      t = ("Image data too small for dimensions and color_type: " ++ a ++ " need at least " ++ b)%string
  | ZeroImageDimensions w h => exists a b, decimal a w /\ decimal b h /\
      t = ("Image dimensions must be non zero: " ++ a ++ "x" ++ b)%string
  | SinkError _ => True
  end.
(** The numbers of an error fit in 64 bits. *)
Definition numbers_ok (e : error) : Prop :=
  match e with
  | InvalidAppSegment n | AppSegmentTooLarge n | IccTooLarge n => 0 <= n < 2 ^ 64
  | BadImageData n m | ZeroImageDimensions n m => 0 <= n < 2 ^ 64 /\ 0 <= m < 2 ^ 64
  | SinkError _ => True
  end.
