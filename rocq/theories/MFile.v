(** [Encoder::new_file] (src/encoder.rs:1171-1189): the encoder writes through std::io::BufWriter<File>.
    BufWriter belongs to the Rust standard library; it is modelled from its documented behaviour and source
    (library/std/src/io/buffered/bufwriter.rs).  Simplifications: ErrorKind::Interrupted, on which the library
    retries, is taken to be part of the device; an operating system panic inside write is not modelled; the
    library's own WriteZero error is [SinkError 0]. *)
From Verif Require Export Rust.

(** The device under the file: [write] on a state accepts some of the bytes or fails.
    std::fs::File::write, a single system call. *)
Definition device (D : Type) := D -> list Z -> D * (nat + error).

(** The file as seen by other programs, the device state and the bytes still in the buffer. *)
Record file_state (D : Type) := { f_dev : D; f_file : list Z; f_buf : list Z }.
Arguments f_dev {D}. Arguments f_file {D}. Arguments f_buf {D}.

(** std BufWriter::new: default capacity 8 KiB *)
Definition BUF_CAPACITY : Z := 8192.

Section Buf.
  Context {D : Type} (dev : device D).

  (** The loop of std BufWriter::flush_buf and of std Write::write_all: write the rest until nothing is left,
      [Ok(0)] is the error WriteZero.  Every successful write consumes a byte, so the length is enough fuel. *)
  Fixpoint write_loop (fuel : nat) (d : D) (file rem : list Z) : D * list Z * list Z * option error :=
    match rem with
    | [] => (d, file, [], None)
    | _ =>
      match fuel with
      | O => (d, file, rem, Some (SinkError 0))
      | S fuel' =>
        match dev d rem with
        | (d', inl O) => (d', file, rem, Some (SinkError 0))
        | (d', inl n) => write_loop fuel' d' (file ++ firstn n rem) (skipn n rem)
        | (d', inr e) => (d', file, rem, Some e)
        end
      end
    end.

  (** std BufWriter::flush_buf; what was written is removed from the buffer, also on failure (BufGuard) *)
  Definition flush_buf (st : file_state D) : file_state D * option error :=
    let '(d, f, rem, r) := write_loop (length (f_buf st)) (f_dev st) (f_file st) (f_buf st) in
    ({| f_dev := d; f_file := f; f_buf := rem |}, r).

  Definition push (st : file_state D) (bs : list Z) : file_state D :=
    {| f_dev := f_dev st; f_file := f_file st; f_buf := f_buf st ++ bs |}.

  (** std BufWriter::write_all and write_all_cold *)
  Definition buf_write_all (st : file_state D) (bs : list Z) : file_state D * option error :=
    let len := Z.of_nat (length bs) in
    let spare := BUF_CAPACITY - Z.of_nat (length (f_buf st)) in
    if len <? spare then (push st bs, None)
    else
      let '(st, r) := if spare <? len then flush_buf st else (st, None) in
      match r with
      | Some e => (st, Some e)
      | None =>
        if BUF_CAPACITY <=? len then
          let '(d, f, _, r) := write_loop (length bs) (f_dev st) (f_file st) bs in
          ({| f_dev := d; f_file := f; f_buf := f_buf st |}, r)
        else (push st bs, None)
      end.

  (** src/encoder.rs:1171-1189 (File::create truncates the file) followed by [encode*], a program [p] writing
      to the BufWriter.  The encoder is consumed, so the BufWriter is dropped on return, on error and on
      unwinding: std's [Drop] flushes and ignores the result, which is returned here as the third part. *)
  Definition through_file {A} (p : prog A) (d : D) : file_state D * outcome A * option error :=
    let '(st, r) := run buf_write_all p {| f_dev := d; f_file := []; f_buf := [] |} in
    let '(st', lost) := flush_buf st in
    (st', r, lost).
End Buf.
