(** Specification of the public API: what the configuration is after a sequence of calls, and what a
    decoder has to find in the file.  Only the types of the public API are taken from the model. *)
From Coq Require Import ZArith List Bool.
From Verif Require Import MImage MQuant MWriter MEncoder MApi.
From Verif Require Import T81.
From Verif Require Export SImage SDct STables.
Import ListNotations.
Open Scope Z_scope.

(** ** Calls on an encoder before encoding (type [call], MApi.v)
    Arguments are values of their Rust types (u8, u16, [u16; 64], byte strings); the scan count is
    accepted. *)
Definition is_u8 (z : Z) : Prop := 0 <= z < 256.
Definition is_u16 (z : Z) : Prop := 0 <= z < 65536.
Definition qtype_wf (t : qtype) : Prop :=
  match t with QCustom l => length l = 64%nat /\ Forall is_u16 l | _ => True end.
Definition density_wf (d : density) : Prop :=
  match d with DensityNone => True | DensityInch x y | DensityCentimeter x y => is_u16 x /\ is_u16 y end.
Definition call_wf (c : call) : Prop :=
  match c with
  | CDensity d => density_wf d
  | CSampling _ | CProgressive _ | COptimize _ => True
  | CQuant l c => qtype_wf l /\ qtype_wf c
  | CScans n => 2 <= n <= 64
  | CRestart n => is_u16 n
  | CSegment nr data => is_u8 nr /\ Forall is_u8 data
  | CIcc data => Forall is_u8 data
  end.

(** ** The configuration: for every option the last value set *)
Record settings := {
  s_quality : Z;
  s_density : density;
  s_sampling : sampling;
  s_luma : qtype;
  s_chroma : qtype;
  s_scans : option Z;
  s_restart : Z;                       (* 0: no restart markers *)
  s_optimize : bool;
  s_segments : list (Z * list Z)
}.

Definition last_set {A} (f : call -> option A) (calls : list call) (default : A) : A :=
  last (flat_map (fun c => match f c with Some a => [a] | None => [] end) calls) default.

(** ICC profiles are split into pieces of 65519 bytes; segment i of n starts with "ICC_PROFILE", 0, i, n. *)
Definition icc_piece : nat := Z.to_nat 65519.
Fixpoint icc_split (fuel : nat) (data : list Z) : list (list Z) :=
  match fuel, data with
  | S f, _ :: _ => firstn icc_piece data :: icc_split f (skipn icc_piece data)
  | _, _ => []
  end.
Definition icc_pieces (data : list Z) : list (list Z) := icc_split (length data) data.
Definition icc_marker : list Z := [73; 67; 67; 95; 80; 82; 79; 70; 73; 76; 69; 0].
Definition icc_segments (data : list Z) : list (Z * list Z) :=
  let ps := icc_pieces data in
  map (fun '(i, p) => (2, icc_marker ++ [Z.of_nat i + 1; Z.of_nat (length ps)] ++ p))
      (combine (seq 0 (length ps)) ps).
(** The largest accepted profile: 254 pieces. *)
Definition icc_limit : Z := 254 * 65519.

Definition segments_of (c : call) : list (Z * list Z) :=
  match c with
  | CSegment nr data =>
    if (1 <=? nr) && (nr <=? 15) && (Z.of_nat (length data) <=? 65533) then [(nr, data)] else []
  | CIcc data => if Z.of_nat (length data) <=? icc_limit then icc_segments data else []
  | _ => []
  end.

Definition settings_of (quality : Z) (calls : list call) : settings :=
  {| s_quality := quality;
     s_density := last_set (fun c => match c with CDensity d => Some d | _ => None end) calls DensityNone;
     s_sampling := last_set (fun c => match c with CSampling s => Some s | _ => None end) calls
                            (if quality <? 90 then F_2_2 else F_1_1);
     s_luma := last_set (fun c => match c with CQuant l _ => Some l | _ => None end) calls QDefault;
     s_chroma := last_set (fun c => match c with CQuant _ ch => Some ch | _ => None end) calls QDefault;
     s_scans := last_set (fun c => match c with
                                   | CProgressive b => Some (if b then Some 4 else None)
                                   | CScans n => Some (Some n)
                                   | _ => None
                                   end) calls None;
     s_restart := last_set (fun c => match c with CRestart n => Some n | _ => None end) calls 0;
     s_optimize := last_set (fun c => match c with COptimize b => Some b | _ => None end) calls false;
     s_segments := flat_map segments_of calls |}.

(** What each call returns: [None] is Ok(()). *)
Definition call_result (c : call) : option error :=
  match c with
  | CSegment nr data =>
    if (nr <? 1) || (15 <? nr) then Some (InvalidAppSegment nr)
    else if 65533 <? Z.of_nat (length data) then Some (AppSegmentTooLarge (Z.of_nat (length data)))
    else None
  | CIcc data => if icc_limit <? Z.of_nat (length data) then Some (IccTooLarge (Z.of_nat (length data))) else None
  | _ => None
  end.

(** ** What is in the file *)
Definition factors (s : sampling) : Z * Z :=
  match s with
  | F_1_1 | R_4_4_4 => (1, 1)
  | F_2_1 | R_4_2_2 => (2, 1)
  | F_1_2 | R_4_4_0 => (1, 2)
  | F_2_2 | R_4_2_0 => (2, 2)
  | F_4_1 | R_4_1_1 => (4, 1)
  | F_4_2 | R_4_1_0 => (4, 2)
  | F_1_4 | R_4_4_1 => (1, 4)
  | F_2_4 | R_4_2_1 => (2, 4)
  end.

(** Components: identifiers 0, 1, ..; the component that is not subsampled uses quantization table 0. *)
Definition comps_of (s : sampling) (color : jcolor) : list comp :=
  let '(h, v) := factors s in
  let full id := {| co_id := id; co_h := h; co_v := v; co_tq := 0 |} in
  let sub id := {| co_id := id; co_h := 1; co_v := 1; co_tq := 1 |} in
  match color with
  | JLuma => [{| co_id := 0; co_h := 1; co_v := 1; co_tq := 0 |}]
  | JYcbcr => [full 0; sub 1; sub 2]
  | JCmyk => [sub 0; sub 1; sub 2; full 3]
  | JYcck => [full 0; sub 1; sub 2; full 3]
  end.

Definition frame_for (s : settings) (color : jcolor) (w h : Z) : frame :=
  {| fr_progressive := match s_scans s with Some _ => true | None => false end;
     fr_width := w; fr_height := h; fr_comps := comps_of (s_sampling s) color |}.

(** JFIF 1.02 header: "JFIF", 0, version, unit, densities, no thumbnail. *)
Definition u16_bytes (v : Z) : list Z := [v / 256; v mod 256].
Definition jfif (d : density) : list Z :=
  [74; 70; 73; 70; 0; 1; 2] ++
  match d with
  | DensityNone => 0 :: u16_bytes 1 ++ u16_bytes 1
  | DensityInch x y => 1 :: u16_bytes x ++ u16_bytes y
  | DensityCentimeter x y => 2 :: u16_bytes x ++ u16_bytes y
  end ++ [0; 0].
(** "Adobe" segment: colour transform 0 (none) or 2 (YCCK). *)
Definition adobe (transform : Z) : list Z := [65; 100; 111; 98; 101; 0; 0; 0; 0; 0; 0; transform].
Definition apps_for (s : settings) (color : jcolor) : list (Z * list Z) :=
  (0, jfif (s_density s))
  :: match color with JCmyk => [(14, adobe 0)] | JYcck => [(14, adobe 2)] | _ => [] end
  ++ s_segments s.

(** Quantizer of the coefficient with row-major index [i]. *)
Definition preset (t : qtype) (luma : bool) : list Z :=
  match t with
  | QDefault => if luma then annexK1 else annexK2
  | QFlat => flat16
  | QCustomMsSsim => if luma then table_ms_ssim_luma else table_ms_ssim_chroma
  | QCustomPsnrHvs => if luma then table_psnr_hvs_luma else table_psnr_hvs_chroma
  | QImageMagick => table_imagemagick
  | QKleinSilversteinCarney => table_klein
  | QDentalXRays => table_dental
  | QVisualDetectionModel => table_visual
  | QImprovedDetectionModel => table_improved
  | QCustom l => l
  end.
Definition quantizer_of (t : qtype) (quality : Z) (luma : bool) (i : Z) : Z :=
  let v := nth (Z.to_nat i) (preset t luma) 0 in
  match t with
  | QCustom _ => Z.max 1 (Z.min 2048 v)
  | _ => scaled quality v
  end.
Definition quantizer (s : settings) (tq : Z) (i : Z) : Z :=
  if tq =? 0 then quantizer_of (s_luma s) (s_quality s) true i
  else quantizer_of (s_chroma s) (s_quality s) false i.

(** The sample of component [ci] that block (by, bx) has in row [y] and column [x]: the component is
    subsampled by [hs] x [vs]; beyond the image the last row and column are repeated; level shift. *)
Definition block_sample (pl : planes) (w h hs vs : Z) (ci : nat) (by_ bx : Z) (y x : nat) : Z :=
  pl ci (Z.min (h - 1) ((8 * by_ + Z.of_nat y) * vs)) (Z.min (w - 1) ((8 * bx + Z.of_nat x) * hs)) - 128.

(** The quantized coefficient [k] (zig-zag) of block (by, bx) of component [ci], for a forward transform
    [T] of samples (row, column) to coefficients (vertical, horizontal frequency). *)
Definition transform := (nat -> nat -> Z) -> nat -> nat -> Z.
Definition expected (T : transform) (s : settings) (color : jcolor) (pl : planes) (w h : Z)
  (ci : nat) (c : comp) (by_ bx k : Z) : Z :=
  let f := frame_for s color w h in
  let '(v, u) := zigzag_pos k in
  int_quantize (8 * quantizer s (co_tq c) (Z.of_nat (8 * v + u)))
               (T (block_sample pl w h (hmax f / co_h c) (vmax f / co_v c) ci by_ bx) v u).

(** The scans: with at most 2 x 2 subsampling and the standard Huffman tables one scan of all
    components, otherwise one scan per component.  A progressive file has first the DC scan of every
    component; the AC coefficients are split in n - 1 bands of 64 / (n - 1) coefficients (the first one
    lacks the DC coefficient, the last one extends to coefficient 63), each coded for every component. *)
Definition spectral_bands (n : Z) : list (Z * Z) :=
  let w := 64 / (n - 1) in
  map (fun i => (if i =? 0 then 1 else i * w, if i =? n - 2 then 63 else (i + 1) * w - 1)) (upto (n - 1)).
Definition single_scans (ncomp : nat) (band : Z * Z) : list scan_info :=
  map (fun ci => {| si_comps := [ci]; si_ss := fst band; si_se := snd band |}) (seq 0 ncomp).
Definition scan_script (s : settings) (color : jcolor) : list scan_info :=
  let ncomp := length (comps_of (s_sampling s) color) in
  let '(h, v) := factors (s_sampling s) in
  match s_scans s with
  | Some n => single_scans ncomp (0, 0) ++ flat_map (single_scans ncomp) (spectral_bands n)
  | None =>
    if negb (s_optimize s) && (h <=? 2) && (v <=? 2)
    then [{| si_comps := seq 0 ncomp; si_ss := 0; si_se := 63 |}]
    else single_scans ncomp (0, 63)
  end.

(** The decoder's result [j] is this image with these settings. *)
Record decoded_with (T : transform) (s : settings) (color : jcolor) (w h : Z) (pl : planes) (j : jpeg) : Prop := {
  da_frame : j_frame j = frame_for s color w h;
  da_apps : j_app j = apps_for s color;
  da_restart : j_ri j = s_restart s;
  da_scans : j_scans j = scan_script s color;
  da_quant : forall ci c, nth_error (comps_of (s_sampling s) color) ci = Some c ->
    quant j ci = Some (map (fun '(v, u) => quantizer s (co_tq c) (Z.of_nat (8 * v + u))) zigzag);
  da_coef : forall ci c by_ bx k, nth_error (comps_of (s_sampling s) color) ci = Some c ->
    0 <= by_ < blocks_high (j_frame j) c -> 0 <= bx < blocks_wide (j_frame j) c -> 0 <= k < 64 ->
    coef j ci by_ bx k = Some (expected T s color pl w h ci c by_ bx k)
}.

Definition decoded_as := decoded_with int_dct.

(** The entries of custom tables fit the 8-bit entries of the file (others are the subject of C12). *)
Definition table_8bit (t : qtype) : Prop :=
  match t with QCustom l => Forall (fun v => v <= 255) l | _ => True end.

(** A valid call of [encode]: dimensions are nonzero u16 values, the data is long enough (and, as every
    Rust slice, at most isize::MAX bytes long). *)
Record valid_input (P : platform) (data : list Z) (w h : Z) (c : ctype) : Prop := {
  vi_platform : plat_ok P;
  vi_bytes : Forall is_u8 data;
  vi_width : 1 <= w <= 65535;
  vi_height : 1 <= h <= 65535;
  vi_enough : w * h * spec_bpp c <= Z.of_nat (length data);
  vi_slice : Z.of_nat (length data) < 2 ^ (ubits P - 1)
}.

(** A valid call of [encode_image]: the ImageBuffer presents the planes [pl]. *)
Record valid_buffer (P : platform) (im : image) (pl : planes) : Prop := {
  vb_platform : plat_ok P;
  vb_image : image_ok im pl;
  vb_fits : im_width im * im_height im < 2 ^ (ubits P - 1)
}.

(** Configurations with the standard Huffman tables, 8-bit quantizers and at most 33 scans. *)
Record std_config (quality : Z) (calls : list call) : Prop := {
  sc_calls : Forall call_wf calls;
  sc_luma : table_8bit (s_luma (settings_of quality calls));
  sc_chroma : table_8bit (s_chroma (settings_of quality calls));
  sc_huffman : s_optimize (settings_of quality calls) = false;
  sc_scans : match s_scans (settings_of quality calls) with Some n => n <= 33 | None => True end
}.
