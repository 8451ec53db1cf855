(** Model of encode_image for image buffers with internal state: every method of the trait takes [&self], but an
    implementation may keep state in a Cell, a RefCell or a Mutex (a decoder that reads row after row, a counter,
    or answers that differ from call to call).  [MEncoder.v] has the image as a value; here each call of a method
    is made in the order of the source, and the state is handed from call to call. *)
From Verif Require Export MEncoder MApi MAvx2.

(** src/image_buffer.rs:86-98 — trait ImageBuffer, implemented with state [so_state] *)
Record source := {
  so_state : Type;
  so_color : so_state -> prog (jcolor * so_state);
  so_width : so_state -> prog (Z * so_state);
  so_height : so_state -> prog (Z * so_state);
  so_fill : Z -> bufs -> so_state -> prog (bufs * so_state)
}.

Section Source.
  Variable P : platform.
  Variable op : operations.
  Variable src : source.
  Notation state := (so_state src).

  (** src/encoder.rs:599-633 — Encoder::write_frame_header *)
  Definition src_write_frame_header (e : encoder) (cs : list component) (ht : list (htab * htab)) (q0 q1 : qtable)
    (s : state) : prog state :=
    let* '(width, s) := so_width src s in
    let* '(height, s) := so_height src s in
    write_frame_header width height cs (match e_prog e with Some _ => true | None => false end) ;;;
    write_quantization_segment 0 q0 ;;;
    write_quantization_segment 1 q1 ;;;
    let* h0 := index ht 0 in
    write_huffman_segment P class_dc 0 (fst h0) ;;;
    write_huffman_segment P class_ac 0 (snd h0) ;;;
    let* '(color, s) := so_color src s in
    (if 3 <=? num_components color then
       let* h1 := index ht 1 in
       write_huffman_segment P class_dc 1 (fst h1) ;;;
       write_huffman_segment P class_ac 1 (snd h1)
     else Ret tt) ;;;
    (match e_restart e with Some ri => write_dri ri | None => Ret tt end) ;;;
    Ret s.

  (** src/encoder.rs:698-711, 966-978 — fill the sample rows [ys] and pad each to the buffer width.  As in the
      loops, [height] is positive when there is a row to fill. *)
  Definition src_fill_rows (width height buffer_width : Z) (ys : list Z) (st : bufs * state) : prog (bufs * state) :=
    foldM (fun '(row, s) y =>
             let y := Z.min y (height - 1) in
             let* '(row, s) := so_fill src y row s in
             Ret (pad_row width buffer_width row, s)) ys st.

  (** src/encoder.rs:665-775 — encode_image_interleaved *)
  Definition src_interleaved (e : encoder) (cs : list component) (q0 q1 : qtable) (w : bitw) (s : state) : prog bitw :=
    let* s := src_write_frame_header e cs (e_huff e) q0 q1 s in
    write_scan_header cs None ;;;
    let '(maxh, maxv) := max_sampling cs in
    let* '(width, s) := so_width src s in
    let* '(height, s) := so_height src s in
    let num_cols := ceil_div width (8 * maxh) in
    let num_rows := ceil_div height (8 * maxv) in
    let buffer_width := num_cols * 8 * maxh in
    let* _ := ck_usize P (buffer_width * 8 * maxv) in
    let* row0 := init_rows cs in
    let ri := match e_restart e with Some r => r | None => 0 end in
    let* '(st, _) :=
      foldM (fun '(st, s) block_y =>
        let* '(row, s) := src_fill_rows width height buffer_width
                            (map (fun y => y + block_y * 8 * maxv) (zrange (8 * maxv)))
                            (map (fun _ => []) row0, s) in
        let* st := foldM (fun '(w, prev_dc, restarts, to_go) block_x =>
          let* '(w, prev_dc) :=
            (if (0 <? ri) && (to_go =? 0) then
               let* w := finalize_bit_buffer P w in
               write_marker (RST (restarts mod 8)) ;;;
               Ret (w, [0; 0; 0; 0])
             else Ret (w, prev_dc)) in
          let* '(w, prev_dc) := write_mcu P op cs (e_huff e) [q0; q1] maxh maxv buffer_width row
                                          block_x (w, prev_dc) in
          let* '(restarts, to_go) := restart_after P ri restarts to_go in
          Ret (w, prev_dc, restarts, to_go))
          (zrange num_cols) st in
        Ret (st, s))
        (zrange num_rows) ((w, [0; 0; 0; 0], 0, ri), s) in
    let '(w, _, _, _) := st in
    finalize_bit_buffer P w.

  (** src/encoder.rs:980-1024 — the blocks of the samples [row] *)
  Definition blocks_of_rows (cs : list component) (width height maxh maxv buffer_width : Z) (q0 q1 : qtable) (row : bufs)
    : prog (list (list (list Z))) :=
    let num_cols := ceil_div width 8 in
    let num_rows := ceil_div height 8 in
    debug_assert P (0 <? num_cols) ;;;
    debug_assert P (0 <? num_rows) ;;;
    mapM (fun '(i, c) =>
      let h_scale := maxh / c_h c in
      let v_scale := maxv / c_v c in
      let cols := ceil_div num_cols h_scale in
      let rows := ceil_div num_rows v_scale in
      debug_assert P (0 <? cols) ;;;
      debug_assert P (0 <? rows) ;;;
      let* bs := mapM (fun block_y =>
        mapM (fun block_x =>
          let* r := index row i in
          let* q := index [q0; q1] (c_qt c) in
          make_block P op r (block_x * 8 * h_scale) (block_y * 8 * v_scale)
                     h_scale v_scale buffer_width q)
          (zrange cols))
        (zrange rows) in
      Ret (concat bs)) (enumerate cs).

  (** src/encoder.rs:945-1024 — encode_blocks *)
  Definition src_blocks (cs : list component) (q0 q1 : qtable) (s : state) : prog (list (list (list Z)) * state) :=
    let* '(width, s) := so_width src s in
    let* '(height, s) := so_height src s in
    let '(maxh, maxv) := max_sampling cs in
    let num_cols := ceil_div width (8 * maxh) * maxh in
    let num_rows := ceil_div height (8 * maxv) * maxv in
    debug_assert P (0 <? num_cols) ;;;
    debug_assert P (0 <? num_rows) ;;;
    let buffer_width := num_cols * 8 in
    let* _ := ck_usize P (num_cols * num_rows * 64) in
    let* row0 := init_rows cs in
    let* '(row, s) := src_fill_rows width height buffer_width (zrange (num_rows * 8)) (row0, s) in
    let* blocks := blocks_of_rows cs width height maxh maxv buffer_width q0 q1 row in
    Ret (blocks, s).

  (** src/encoder.rs:778-832 — encode_image_sequential *)
  Definition src_sequential (e : encoder) (cs : list component) (q0 q1 : qtable) (w : bitw) (s : state) : prog bitw :=
    let* '(blocks, s) := src_blocks cs q0 q1 s in
    let* ht := tables_for P e cs blocks in
    src_write_frame_header e cs ht q0 q1 s ;;;
    let ri := match e_restart e with Some r => r | None => 0 end in
    foldM (fun w '(i, c) =>
      write_scan_header [c] None ;;;
      let* bs := index blocks i in
      let* dc := dc_table ht c in
      let* ac := ac_table ht c in
      sequential_scan P ri bs dc ac w)
      (enumerate cs) w.

  (** src/encoder.rs:837-943 — encode_image_progressive *)
  Definition src_progressive (e : encoder) (scans : Z) (cs : list component) (q0 q1 : qtable) (w : bitw) (s : state) : prog bitw :=
    let* '(blocks, s) := src_blocks cs q0 q1 s in
    let* ht := tables_for P e cs blocks in
    src_write_frame_header e cs ht q0 q1 s ;;;
    let ri := match e_restart e with Some r => r | None => 0 end in
    let* w := foldM (fun w '(i, c) =>
      write_scan_header [c] (Some (0, 0)) ;;;
      let* bs := index blocks i in
      let* dc := dc_table ht c in
      dc_scan P ri bs dc w)
      (enumerate cs) w in
    let* bands := prog_bands P scans in
    foldM (fun w '(start, end_) =>
      foldM (fun w '(i, c) =>
        let* se := ck_u P 8 (wrap_u 8 end_ - 1) in
        write_scan_header [c] (Some (wrap_u 8 start, se)) ;;;
        let* bs := index blocks i in
        let* ac := ac_table ht c in
        ac_scan P ri bs start end_ ac w)
        (enumerate cs) w)
      bands w.

  (** src/encoder.rs:487-491 — [image.width() == 0 || image.height() == 0] *)
  Definition src_is_empty (s : state) : prog (bool * state) :=
    let* '(width, s) := so_width src s in
    if width =? 0 then Ret (true, s)
    else let* '(height, s) := so_height src s in Ret (height =? 0, s).

  (** src/encoder.rs:483-533 — encode_image_internal *)
  Definition src_internal (e : encoder) (s : state) : prog unit :=
    let* '(empty, s) := src_is_empty s in
    if empty then
      let* '(width, s) := so_width src s in
      let* '(height, _) := so_height src s in
      Throw (ZeroImageDimensions width height)
    else
      let* t0 := index (e_qtypes e) 0 in
      let* q0 := new_with_quality t0 (e_quality e) true in
      let* t1 := index (e_qtypes e) 1 in
      let* q1 := new_with_quality t1 (e_quality e) false in
      let* '(color, s) := so_color src s in
      let cs := e_components e ++ init_components (e_sampling e) color in
      write_marker SOI ;;;
      write_header (e_density e) ;;;
      (match color with
       | JCmyk => write_segment P (APP 14) ADOBE_UNKNOWN
       | JYcck => write_segment P (APP 14) ADOBE_YCCK
       | _ => Ret tt
       end) ;;;
      foldM (fun _ '(nr, data) => write_segment P (APP nr) data) (e_segments e) tt ;;;
      let w := bitw_new P in
      let* _ :=
        match e_prog e with
        | Some scans => src_progressive e scans cs q0 q1 w s
        | None =>
          if e_optimize e || negb (supports_interleaved (e_sampling e))
          then src_sequential e cs q0 q1 w s
          else src_interleaved e cs q0 q1 w s
        end in
      write_marker EOI.
End Source.

(** src/encoder.rs:472-481 — encode_image, without and with SIMD, on a source in state [s]; a whole use of the API
    as [run_encode_image] *)
Definition run_encode_source (P : platform) (quality : Z) (cs : list call) (src : source) (s : so_state src) : prog unit :=
  let* '(e, _) := build P quality cs in src_internal P default_operations src e s.
Definition run_encode_source_avx2 (P : platform) (quality : Z) (cs : list call) (src : source) (s : so_state src) : prog unit :=
  let* '(e, _) := build P quality cs in src_internal P avx2_operations src e s.
