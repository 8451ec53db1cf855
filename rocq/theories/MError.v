(** Model of the parts of src/error.rs that the other files do not need: Display and Error::source. *)
From Coq Require Import ZArith List Bool String Ascii.
From Verif Require Import Rust.
Import ListNotations.
Open Scope Z_scope.

(** core::fmt: Display for unsigned integers, formatted with "{}" — repeated division by ten.  (The library takes two
    digits at a time; the digits are the same.)  Fuel: more digits than a u128 has. *)
Definition digit (d : Z) : ascii := ascii_of_nat (48 + Z.to_nat d).
Fixpoint fmt_loop (fuel : nat) (n : Z) (acc : string) : string :=
  match fuel with
  | O => acc
  | S fuel' => if n <? 10 then String (digit n) acc else fmt_loop fuel' (n / 10) (String (digit (n mod 10)) acc)
  end.
Definition fmt_unsigned (n : Z) : string := fmt_loop 40 n EmptyString.

(** src/error.rs:38-66 — Display for EncodingError.  [IoError] and [Write] are both [SinkError] (Rust.v); what they print is
    the text of the io::Error or the String they carry: [text]. *)
Definition display (text : Z -> string) (e : error) : string :=
  match e with
  | InvalidAppSegment nr => "Invalid app segment number: " ++ fmt_unsigned nr
  | AppSegmentTooLarge length => "App segment exceeds maximum allowed data length of 65533: " ++ fmt_unsigned length
  | IccTooLarge length => "ICC profile exceeds maximum allowed data length: " ++ fmt_unsigned length
  | BadImageData length required =>
    "Image data too small for dimensions and color_type: " ++ fmt_unsigned length ++ " need at least " ++ fmt_unsigned required
  | ZeroImageDimensions width height =>
    "Image dimensions must be non zero: " ++ fmt_unsigned width ++ "x" ++ fmt_unsigned height
  | SinkError p => text p
  end%string.

(** src/error.rs:68-76 — Error::source.  [is_io]: the payload is an io::Error (variant IoError), not a String (variant Write). *)
Definition source (is_io : Z -> bool) (e : error) : option Z :=
  match e with
  | SinkError p => if is_io p then Some p else None
  | _ => None
  end.
