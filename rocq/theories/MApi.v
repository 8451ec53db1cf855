(** Model of a whole use of the API: construct, configure, encode. *)
From Verif Require Export MEncoder.

(** src/encoder.rs:267-269, 277-279, 291-293, 320-322, 332-334, 344-346 — the getters *)
Definition get_density (e : encoder) : density := e_density e.
Definition get_sampling_factor (e : encoder) : sampling := e_sampling e.
Definition get_quantization_tables (e : encoder) : list qtype := e_qtypes e.
Definition get_progressive_scans (e : encoder) : option Z := e_prog e.
Definition get_restart_interval (e : encoder) : option Z := e_restart e.
Definition get_optimized_huffman_tables (e : encoder) : bool := e_optimize e.

(** The configuration methods, src/encoder.rs:262-401 *)
Inductive call :=
| CDensity (d : density)
| CSampling (s : sampling)
| CQuant (luma chroma : qtype)
| CProgressive (b : bool)
| CScans (n : Z)
| CRestart (n : Z)
| COptimize (b : bool)
| CSegment (nr : Z) (data : list Z)
| CIcc (data : list Z).

(** One call; src/encoder.rs:262-401.  The result of the two fallible calls is kept. *)
Definition do_call (P : platform) (c : call) (e : encoder) : prog (encoder * option error) :=
  match c with
  | CDensity d => Ret (set_density d e, None)
  | CSampling s => Ret (set_sampling_factor s e, None)
  | CQuant l ch => Ret (set_quantization_tables l ch e, None)
  | CProgressive b => Ret (set_progressive b e, None)
  | CScans n => let* e := set_progressive_scans n e in Ret (e, None)
  | CRestart n => Ret (set_restart_interval n e, None)
  | COptimize b => Ret (set_optimized_huffman_tables b e, None)
  | CSegment nr data => Ret (add_app_segment nr data e)
  | CIcc data => add_icc_profile P data e
  end.

Fixpoint do_calls (P : platform) (cs : list call) (e : encoder) : prog (encoder * list (option error)) :=
  match cs with
  | [] => Ret (e, [])
  | c :: cs' =>
    let* '(e, r) := do_call P c e in
    let* '(e, rs) := do_calls P cs' e in
    Ret (e, r :: rs)
  end.

(** let mut e = Encoder::new(w, quality); e.call1(..); ..; *)
Definition build (P : platform) (quality : Z) (cs : list call) : prog (encoder * list (option error)) :=
  let* e := encoder_new P quality in do_calls P cs e.

(** .. e.encode(data, width, height, color_type) *)
Definition run_encode (P : platform) (quality : Z) (cs : list call) (data : list Z) (w h : Z) (c : ctype)
  : prog unit :=
  let* '(e, _) := build P quality cs in encode P e data w h c.

(** .. e.encode_image(image) *)
Definition run_encode_image (P : platform) (quality : Z) (cs : list call) (im : image) : prog unit :=
  let* '(e, _) := build P quality cs in encode_image P e im.
