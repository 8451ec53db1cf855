(** Theorems about user-supplied image buffers: property C26. *)
From Verif Require Import MApi SApi SRoom SRows PTrace PRoom PRound PBytesF ThmRound ThmBytes T81.
From Coq Require Import ZifyBool ZifyNat Sorting.Sorted.

Lemma padded_ceil n m : 0 < m -> (n + m - 1) / m = ceil_div n m.
Proof.
  intros Hm. rewrite ceil_div_cdiv by assumption. unfold cdiv. reflexivity.
Qed.
Lemma vmax_max s color w h : vmax (frame_for s color w h) = max_v (s_sampling s) color.
Proof.
  rewrite <- frame_for_eq. exact (vmax_frame _ w h _ _ _ (init_components_ok (s_sampling s) color)).
Qed.
Lemma hmax_max s color w h : hmax (frame_for s color w h) = max_h (s_sampling s) color.
Proof.
  rewrite <- frame_for_eq. exact (hmax_frame _ w h _ _ _ (init_components_ok (s_sampling s) color)).
Qed.
Lemma vmax_pos s color w h : 1 <= vmax (frame_for s color w h).
Proof. rewrite vmax_max. pose proof (cs_mv _ _ _ (init_components_ok (s_sampling s) color)). lia. Qed.

Lemma row_order_eq s color w h : row_order s color w h
  = map (fun y => Z.min y (h - 1)) (zrange (ceil_div h (8 * max_v (s_sampling s) color) * max_v (s_sampling s) color * 8)).
Proof.
  pose proof (cs_mv _ _ _ (init_components_ok (s_sampling s) color)) as Hmv.
  unfold row_order. cbv zeta. rewrite vmax_max, padded_ceil by lia.
  replace (ceil_div h (8 * max_v (s_sampling s) color) * (8 * max_v (s_sampling s) color))
    with (ceil_div h (8 * max_v (s_sampling s) color) * max_v (s_sampling s) color * 8) by ring.
  apply map_ext. intros y. apply Z.min_comm.
Qed.

(** ** Which rows are asked for *)
(** For every image buffer, whatever it does (it may append anything, or panic), and every configuration:
    making it report its calls changes the run only by the reports; the reported rows are an initial part of
    [row_order], and all of it when encoding succeeds.  So fill_buffers is called only with rows of the image,
    in non-decreasing order, and for each row at least once. *)
Theorem C26_calls : forall P quality calls im tok,
  Forall call_wf calls -> 0 <= im_height im ->
  let order := row_order (settings_of quality calls) (im_color im) (im_width im) (im_height im) in
  let plain := exec (run_encode_image P quality calls im) in
  let reported := exec (run_encode_image P quality calls (reporting tok im)) in
  snd reported = snd plain /\
  exists rows rest, order = rows ++ rest /\ (snd plain = Ok tt -> rest = []) /\
    shuffle (fst plain) (flat_map tok rows) (fst reported).
Proof.
  intros P quality calls im tok Hc Hh order plain reported. unfold plain, reported.
  rewrite !run_encode_image_eq by assumption. set (s := settings_of quality calls) in *.
  destruct (traced_internal tok P default_operations (enc_of s) im eq_refl Hh) as (l & Hl & E & k & Hk & S).
  split; [exact E|]. destruct Hl as [[-> Hno]|Hl].
  - exists [], order. split; [reflexivity|]. split; [intros H; now apply Hno in H|]. rewrite firstn_nil in S. exact S.
  - change (e_sampling (enc_of s)) with (s_sampling s) in Hl. rewrite <- (row_order_eq s (im_color im) (im_width im)) in Hl.
    fold order in Hl. subst l. exists (firstn k order), (skipn k order). split; [now rewrite firstn_skipn|]. split; [|exact S].
    intros H. apply skipn_all2. now apply (Hk tt).
Qed.

(** What [row_order] is *)
Theorem C26_order : forall s color w h, 1 <= h ->
  Forall (fun y => 0 <= y < h) (row_order s color w h) /\
  Sorted Z.le (row_order s color w h) /\
  (forall y, 0 <= y < h -> In y (row_order s color w h)) /\
  Z.of_nat (length (row_order s color w h)) < h + 8 * vmax (frame_for s color w h).
Proof.
  intros s color w h Hh. split; [|split; [|split]].
  - apply Forall_forall. intros y. now apply row_order_below.
  - apply row_order_sorted.
  - intros y. apply row_order_all. apply vmax_pos.
  - unfold row_order. rewrite !map_length, seq_length. pose proof (vmax_pos s color w h) as Hv.
    set (m := 8 * vmax (frame_for s color w h)). assert (0 < m) by (unfold m; lia).
    pose proof (Z.div_mod (h + m - 1) m ltac:(lia)). pose proof (Z.mod_pos_bound (h + m - 1) m ltac:(lia)). nia.
Qed.

(** A buffer that ignores what it is asked and appends nothing: the encoder panics (the sample buffers are too
    short), but only after asking for the rows. *)
Definition bad_image : image := {| im_color := JYcbcr; im_width := 20; im_height := 9; im_fill := fun _ bs => Ret bs |}.
Example C26_case :
  row_order (settings_of 50 []) JYcbcr 20 9 = [0; 1; 2; 3; 4; 5; 6; 7; 8; 8; 8; 8; 8; 8; 8; 8] /\
  snd (exec (run_encode_image debug64 50 [] bad_image)) = Panicked PIndex /\
  filter (fun b => b <? 0) (fst (exec (run_encode_image debug64 50 [] (reporting (fun y => [-1 - y]) bad_image))))
  = map (fun y => -1 - y) (row_order (settings_of 50 []) JYcbcr 20 9).
Proof. vm_compute. repeat split. Qed.

(** ** Room *)
(** For every buffer that presents an image: each call is for an existing row and with room for one more row in
    every buffer in use, within the capacity reserved at the beginning: a buffer that would otherwise panic
    behaves the same. *)
Lemma reserved_eq s color w h : exact_capacity (enc_of s) color w h = reserved s color w h.
Proof.
  unfold exact_capacity, reserved. cbn [enc_of e_components e_prog e_optimize e_sampling app].
  pose proof (init_components_ok (s_sampling s) color) as Hcs. rewrite (cs_max _ _ _ Hcs).
  pose proof (cs_mh _ _ _ Hcs) as Hmh. pose proof (cs_mv _ _ _ Hcs) as Hmv.
  cbv zeta. rewrite hmax_max, vmax_max, !padded_ceil by lia.
  assert (Es : supports_interleaved (s_sampling s) = (fst (factors (s_sampling s)) <=? 2) && (snd (factors (s_sampling s)) <=? 2))
    by (destruct (s_sampling s); reflexivity).
  destruct (factors (s_sampling s)) as [fh fv]. cbn [fst snd] in Es. rewrite Es.
  destruct (s_scans s); [lia|]. destruct (s_optimize s); cbn [negb orb andb]; [lia|].
  destruct ((fh <=? 2) && (fv <=? 2)); cbn [negb]; lia.
Qed.

Theorem C26_room : forall P quality calls im pl,
  Forall call_wf calls -> valid_buffer P im pl ->
  let cap := reserved (settings_of quality calls) (im_color im) (im_width im) (im_height im) in
  exec (run_encode_image P quality calls (strict cap im)) = exec (run_encode_image P quality calls im).
Proof.
  intros P quality calls im pl Hc V cap. rewrite !run_encode_image_eq by assumption.
  apply internal_room with (pl := pl) (cap := cap); try reflexivity.
  - apply V.
  - intros y bs H. apply in_orderb_ok in H. cbn [strict im_fill]. now rewrite H.
  - rewrite reserved_eq. unfold cap. lia.
Qed.

(** Less room would not do: with one sample less the strict buffer is not satisfied. *)
Example C26_room_sharp :
  snd (exec (run_encode_image debug64 60 [] (strict 127 (image_of debug64 (repeat 7 192) 8 8 Rgb)))) = Panicked PUndefined /\
  reserved (settings_of 60 []) JYcbcr 8 8 = 256 /\
  reserved (settings_of 60 [CSampling R_4_4_4]) JYcbcr 8 8 = 64 /\
  snd (exec (run_encode_image debug64 60 [CSampling R_4_4_4] (strict 63 (image_of debug64 (repeat 7 192) 8 8 Rgb)))) = Panicked PUndefined /\
  snd (exec (run_encode_image debug64 60 [CSampling R_4_4_4] (strict 64 (image_of debug64 (repeat 7 192) 8 8 Rgb)))) = Ok tt.
Proof. vm_compute. repeat split. Qed.

(** ** No index out of bounds *)
Theorem C26_no_panic : forall P quality calls im pl,
  Forall call_wf calls -> s_optimize (settings_of quality calls) = false -> valid_buffer P im pl ->
  snd (exec (run_encode_image P quality calls im)) = Ok tt.
Proof.
  intros P quality calls im pl Hc O V. now rewrite (C40_exact_bytes_image P quality calls im pl Hc O V).
Qed.
