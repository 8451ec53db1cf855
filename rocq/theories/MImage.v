(** Model of src/image_buffer.rs and the colour enums of src/encoder.rs *)
From Verif Require Export Rust.

(** src/encoder.rs:21-34 — JpegColorType *)
Inductive jcolor := JLuma | JYcbcr | JCmyk | JYcck.

(** src/encoder.rs:38-46 — get_num_components *)
Definition num_components (c : jcolor) : Z :=
  match c with JLuma => 1 | JYcbcr => 3 | JCmyk | JYcck => 4 end.

(** src/encoder.rs:53-79 — ColorType *)
Inductive ctype := Luma | Rgb | Rgba | Bgr | Bgra | Ycbcr | Cmyk | CmykAsYcck | Ycck.

(** src/encoder.rs:84-92 — get_bytes_per_pixel *)
Definition bytes_per_pixel (c : ctype) : Z :=
  match c with
  | Luma => 1
  | Rgb | Bgr | Ycbcr => 3
  | Rgba | Bgra | Cmyk | CmykAsYcck | Ycck => 4
  end.

(** src/image_buffer.rs:9-31 — rgb_to_ycbcr.  Plain [Z] arithmetic: for u8 arguments every
    intermediate result is far inside i32 (theorem [C22_no_overflow]); the final casts to
    u8 are modelled. *)
Definition rgb_to_ycbcr (r g b : Z) : Z * Z * Z :=
  let y := 19595 * r + 38470 * g + 7471 * b in
  let cb := -11059 * r - 21709 * g + 32768 * b + 128 * 2 ^ 16 in
  let cr := 32768 * r - 27439 * g - 5329 * b + 128 * 2 ^ 16 in
  let y := (y + 0x7FFF) / 2 ^ 16 in
  let cb := (cb + 0x7FFF) / 2 ^ 16 in
  let cr := (cr + 0x7FFF) / 2 ^ 16 in
  (wrap_u 8 y, wrap_u 8 cb, wrap_u 8 cr).

(** src/image_buffer.rs:35-38 — cmyk_to_ycck *)
Definition cmyk_to_ycck (c m y k : Z) : Z * Z * Z * Z :=
  let '(y, cb, cr) := rgb_to_ycbcr c m y in (y, cb, cr, 255 - k).

(** The four channel buffers, [Vec<u8>; 4], as a list of four lists. *)
Definition bufs := list (list Z).

(** src/image_buffer.rs:86-98 — trait ImageBuffer.  [im_fill y] appends to the buffers; a
    user-supplied implementation may do anything, including panic. *)
Record image := {
  im_color : jcolor;
  im_width : Z;
  im_height : Z;
  im_fill : Z -> bufs -> prog bufs
}.

(** src/image_buffer.rs:125-133 — get_line; the slice expression panics when the end is past the
    data *)
Definition get_line (P : platform) (data : list Z) (y width num_colors : Z) : prog (list Z) :=
  let* a := ck_usize P (y * width) in
  let* start := ck_usize P (a * num_colors) in
  let* b := ck_usize P (width * num_colors) in
  let* end_ := ck_usize P (start + b) in
  if (start <=? end_) && (end_ <=? zlen data) then Ret (slice data start end_) else Panic PIndex.

(** slice::chunks_exact(n) *)
Definition chunks_exact (n : nat) (l : list Z) : list (list Z) :=
  map (fun i => firstn n (skipn (i * n) l)) (seq 0 (length l / n)).

(** Pushing one value per pixel on each of the channels: [cols] gives, per pixel, the values pushed
    to channels 0, 1, ...; channels beyond are untouched. *)
Fixpoint push_pixel (bs : bufs) (vs : list Z) : bufs :=
  match bs, vs with
  | b :: bs', v :: vs' => (b ++ [v]) :: push_pixel bs' vs'
  | _, _ => bs
  end.
Definition push_pixels (bs : bufs) (px : list (list Z)) : bufs := fold_left push_pixel px bs.

(** src/image_buffer.rs:115-121 — GrayImage::fill_buffers *)
Definition gray_image (P : platform) (data : list Z) (w h : Z) : image :=
  {| im_color := JLuma; im_width := w; im_height := h;
     im_fill := fun y bs =>
       let* line := get_line P data y w 1 in
       Ret (push_pixels bs (map (fun p => [p]) line)) |}.

Definition ycc3 (t : Z * Z * Z) : list Z := let '(a, b, c) := t in [a; b; c].
Definition ycc4 (t : Z * Z * Z * Z) : list Z := let '(a, b, c, d) := t in [a; b; c; d].

(** src/image_buffer.rs:135-175 — macro ycbcr_image! *)
Definition ycbcr_image (P : platform) (num_colors o1 o2 o3 : Z) (data : list Z) (w h : Z) : image :=
  {| im_color := JYcbcr; im_width := w; im_height := h;
     im_fill := fun y bs =>
       let* line := get_line P data y w num_colors in
       Ret (push_pixels bs
              (map (fun p => ycc3 (rgb_to_ycbcr (zn p o1) (zn p o2) (zn p o3)))
                   (chunks_exact (Z.to_nat num_colors) line))) |}.

(** src/image_buffer.rs:172-175 *)
Definition rgb_image P := ycbcr_image P 3 0 1 2.
Definition rgba_image P := ycbcr_image P 4 0 1 2.
Definition bgr_image P := ycbcr_image P 3 2 1 0.
Definition bgra_image P := ycbcr_image P 4 2 1 0.

(** src/image_buffer.rs:192-200 — YCbCrImage::fill_buffers *)
Definition ycc_image (P : platform) (data : list Z) (w h : Z) : image :=
  {| im_color := JYcbcr; im_width := w; im_height := h;
     im_fill := fun y bs =>
       let* line := get_line P data y w 3 in
       Ret (push_pixels bs (map (fun p => [zn p 0; zn p 1; zn p 2]) (chunks_exact 3 line))) |}.

(** src/image_buffer.rs:218-227 — CmykImage::fill_buffers (255 - u8 cannot underflow) *)
Definition cmyk_image (P : platform) (data : list Z) (w h : Z) : image :=
  {| im_color := JCmyk; im_width := w; im_height := h;
     im_fill := fun y bs =>
       let* line := get_line P data y w 4 in
       Ret (push_pixels bs
              (map (fun p => [255 - zn p 0; 255 - zn p 1; 255 - zn p 2; 255 - zn p 3])
                   (chunks_exact 4 line))) |}.

(** src/image_buffer.rs:245-262 — CmykAsYcckImage::fill_buffers *)
Definition cmyk_as_ycck_image (P : platform) (data : list Z) (w h : Z) : image :=
  {| im_color := JYcck; im_width := w; im_height := h;
     im_fill := fun y bs =>
       let* line := get_line P data y w 4 in
       Ret (push_pixels bs
              (map (fun p => ycc4 (cmyk_to_ycck (zn p 0) (zn p 1) (zn p 2) (zn p 3)))
                   (chunks_exact 4 line))) |}.

(** src/image_buffer.rs:280-290 — YcckImage::fill_buffers *)
Definition ycck_image (P : platform) (data : list Z) (w h : Z) : image :=
  {| im_color := JYcck; im_width := w; im_height := h;
     im_fill := fun y bs =>
       let* line := get_line P data y w 4 in
       Ret (push_pixels bs
              (map (fun p => [zn p 0; zn p 1; zn p 2; zn p 3]) (chunks_exact 4 line))) |}.
