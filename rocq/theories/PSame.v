(** The file depends on the quantized coefficients only (C57). *)
From Verif Require Import T81 SFile SSize SRestart SDecide PScan PScans Spec PImage PGeom PInter PFile PWhole PTop PEncode PApi PRound PBytes PBytesI PBytesF PPlat POpt PRest PDecide PCount PAll.
From Coq Require Import ZArith List Bool Lia.
Import ListNotations.
Open Scope Z_scope.

(** ** Coding *)
Lemma encode_units_agree dc ac ss se cf1 cf2 : 0 <= ss -> se <= 63 -> forall us p,
  (forall ci y x k, In (ci, y, x) us -> 0 <= k < 64 -> cf1 ci y x k = cf2 ci y x k) ->
  encode_units dc ac ss se cf1 p us = encode_units dc ac ss se cf2 p us.
Proof.
  intros Hs He. induction us as [|[[ci y] x] us IH]; intros p H; [reflexivity|]. cbn [encode_units].
  rewrite (H ci y x 0) by (try (now left); lia).
  assert (E : map (cf1 ci y x) (band (Z.max 1 ss) se) = map (cf2 ci y x) (band (Z.max 1 ss) se)).
  { apply map_ext_in. intros k Hk. apply H; [now left|]. unfold band, upto in Hk.
    apply in_map_iff in Hk as (i & <- & Hi). apply in_map_iff in Hi as (n & <- & Hn). apply in_seq in Hn. lia. }
  rewrite E. f_equal. f_equal. apply IH. intros ci' y' x' k Hin Hk. apply H; [now right|exact Hk].
Qed.

Section Same.
  Variable s : settings.
  Variable Hs : settings_wf s.
  Variable color : jcolor.
  Variables w h : Z.
  Let f := frame_for s color w h.

  (** Two arrays of coefficients agree on everything the scans code. *)
  Definition agree (cf1 cf2 : coefficients) : Prop :=
    forall si ci y x k, In si (scan_script s color) -> In (ci, y, x) (concat (mcus_of f si)) -> 0 <= k < 64 -> cf1 ci y x k = cf2 ci y x k.

  Lemma agree_parts t cf1 cf2 : agree cf1 cf2 -> file_parts t s f color cf1 = file_parts t s f color cf2.
  Proof.
    intros A. unfold file_parts. do 4 f_equal. apply map_ext_in. intros si Hsi. f_equal. unfold scan_data.
    destruct (script_band s color si Hs Hsi) as (B1 & B2 & _).
    apply map_ext_in. intros m Hm. f_equal. apply encode_units_agree; [lia|lia|].
    intros ci y x k Hu Hk. apply (A si); [exact Hsi| |exact Hk].
    apply in_concat in Hu as (mcu & Hmcu & Hu). apply in_concat. exists mcu. split; [|exact Hu].
    exact (intervals_in _ _ _ Hm mcu Hmcu).
  Qed.
End Same.

Lemma zn_ext64 l1 l2 : length l1 = 64%nat -> length l2 = 64%nat -> (forall k, 0 <= k < 64 -> zn l1 k = zn l2 k) -> l1 = l2.
Proof.
  intros L1 L2 H. apply (nth_ext l1 l2 0 0); [congruence|]. intros n Hn. specialize (H (Z.of_nat n) ltac:(lia)).
  unfold zn in H. rewrite Nat2Z.id in H. exact H.
Qed.

Section Two.
  Variable s : settings.
  Variable Hs : settings_wf s.
  Variables (op : operations) (F : list Z -> list Z) (T : transform).
  Variable Hop : op_ok op F.
  Variable HF : transform_is F T.
  Variables (im1 im2 : image) (pl1 pl2 : planes).
  Variable Him1 : image_ok im1 pl1.
  Variable Him2 : image_ok im2 pl2.
  Variable Ec : im_color im2 = im_color im1.
  Variable Ew : im_width im2 = im_width im1.
  Variable Eh : im_height im2 = im_height im1.
  Let color := im_color im1.
  Let w := im_width im1.
  Let h := im_height im1.
  Let f := frame_for s color w h.
  Let cf1 := spec_cf s T im1 pl1.
  Let cf2 := spec_cf s T im2 pl2.
  Variable Hag : agree s color w h cf1 cf2.
  Variable Hreal : forall ci c y x k, nth_error (fr_comps f) ci = Some c -> 0 <= y < blocks_high f c -> 0 <= x < blocks_wide f c ->
    0 <= k < 64 -> cf1 ci y x k = cf2 ci y x k.
  Let e := enc_of s.
  Let cs := init_components (s_sampling s) color.
  Let mh := max_h (s_sampling s) color.
  Let mv := max_v (s_sampling s) color.
  Let q0 := qtable_of (s_luma s) (e_quality e) true.
  Let q1 := qtable_of (s_chroma s) (e_quality e) false.

  Lemma units_same i c : nth_error cs i = Some c -> units im1 pl1 F mh mv q0 q1 i c = units im2 pl2 F mh mv q0 q1 i c.
  Proof.
    intros Hi. unfold units. rewrite Ew, Eh. apply map_ext_in. intros [y x] Hyx. apply in_grid in Hyx as [Hy Hx]. f_equal.
    assert (Hcs : comps_ok cs mh mv) by apply init_components_ok.
    assert (Hf : nth_error (fr_comps f) i = Some (comp_of c)).
    { unfold f. rewrite <- frame_for_eq. unfold frame_of. cbn [fr_comps]. now apply map_nth_error. }
    apply zn_ext64; [apply qblock_pure_length|apply qblock_pure_length|]. intros k Hk.
    pose proof (spec_cf_ok s Hs F T im1 pl1 HF i c y x k Hi Hk) as E1.
    pose proof (spec_cf_ok s Hs F T im2 pl2 HF i c y x k) as E2. rewrite Ec in E2. specialize (E2 Hi Hk).
    fold e in E1, E2. fold color mh mv q0 q1 cf1 in E1. fold color mh mv q0 q1 cf2 in E2. rewrite E1, E2.
    apply (Hreal i (comp_of c)); [exact Hf| | |exact Hk]; unfold f; rewrite <- frame_for_eq; fold cs.
    - rewrite (blocks_high_eq _ _ _ cs mh mv i c Hcs Hi). exact Hy.
    - rewrite (blocks_wide_eq _ _ _ cs mh mv i c Hcs Hi). exact Hx.
  Qed.

  Lemma blocks_same : all_blocks im1 pl1 F cs mh mv q0 q1 = all_blocks im2 pl2 F cs mh mv q0 q1.
  Proof.
    unfold all_blocks. apply map_ext_in. intros [i c] Hi. apply in_enum in Hi as [_ Hi]. f_equal. now apply units_same.
  Qed.
  Lemma opt_tables_both P d0 a0 d1 a1 bd0 ba0 bd1 ba1 :
    opt_tables P im1 pl1 F e (s_luma s) (s_chroma s) d0 a0 d1 a1 bd0 ba0 bd1 ba1 ->
    opt_tables P im2 pl2 F e (s_luma s) (s_chroma s) d0 a0 d1 a1 bd0 ba0 bd1 ba1.
  Proof.
    intros (H1 & V0 & V1 & V2 & V3 & H2). unfold opt_tables. rewrite Ec. change (e_sampling e) with (s_sampling s) in *.
    fold color in H1, H2 |- *. fold cs mh mv q0 q1 in H1, H2 |- *.
    split; [rewrite <- blocks_same; exact H1|]. split; [exact V0|]. split; [exact V1|]. split; [exact V2|]. split; [exact V3|].
    intros i c Hi. specialize (H2 i c Hi).
    pose proof Hi as Hi'. apply in_enum in Hi' as [_ Hc]. rewrite Hc in H2 |- *. 
    rewrite <- (units_same _ _ Hc). exact H2.
  Qed.
  Lemma written_both P d0 d1 bd0 bd1 : dc_written s F P im1 pl1 d0 d1 bd0 bd1 -> dc_written s F P im2 pl2 d0 d1 bd0 bd1.
  Proof.
    intros H i c Hi. rewrite Ec in Hi |- *. change (e_sampling (enc_of s)) with (s_sampling s) in *. fold color in Hi |- *.
    specialize (H i c Hi). change (e_sampling (enc_of s)) with (s_sampling s) in *. fold color in H.
    fold e mh mv q0 q1 in H |- *. rewrite <- (units_same i c Hi). exact H.
  Qed.

  (** A successful call with the first image: the same file for the second. *)
  Theorem same_file P bytes : plat_ok P -> im_width im1 * im_height im1 < 2 ^ (ubits P - 1) ->
    (s_optimize s = true -> countable s color w h) ->
    exec (encode_image_internal P op (enc_of s) im1) = (bytes, Ok tt) -> exec (encode_image_internal P op (enc_of s) im2) = (bytes, Ok tt).
  Proof.
    intros HP Hfit Hfew E. assert (Hfit2 : im_width im2 * im_height im2 < 2 ^ (ubits P - 1)) by (rewrite Ew, Eh; exact Hfit).
    destruct (s_optimize s) eqn:O.
    - destruct (opt_tables_done s Hs O op F Hop P im1 pl1 bytes HP Him1 Hfit (Hfew eq_refl) E) as (d0 & a0 & d1 & a1 & bd0 & ba0 & bd1 & ba1 & Ht).
      assert (D : dc_written s F P im1 pl1 d0 d1 bd0 bd1).
      { destruct (dbg P) eqn:Hd.
        - destruct (covered_dec T s color pl1 w h) as [C|C]; unfold color, w, h in C;
            rewrite <- (covered_iff s Hs O op F T Hop HF im1 pl1 Him1) in C.
          + exact (covered_written s F P im1 pl1 _ _ _ _ _ _ _ _ Ht C).
          + exfalso. destruct (debug_panics s Hs O op F T Hop HF im1 pl1 Him1 (Hfew eq_refl) P HP Hfit Hd _ _ _ _ _ _ _ _ Ht C) as (b & X).
            rewrite X in E. discriminate E.
        - exact (release_written s Hs O op F Hop im1 pl1 Him1 (Hfew eq_refl) P _ _ _ _ _ _ _ _ Hd Ht). }
      pose proof (opt_bytes_written s Hs O op F T Hop HF P im1 pl1 _ _ _ _ _ _ _ _ HP Him1 Hfit Ht D) as W1.
      pose proof (opt_bytes_written s Hs O op F T Hop HF P im2 pl2 _ _ _ _ _ _ _ _ HP Him2 Hfit2 (opt_tables_both _ _ _ _ _ _ _ _ _ Ht) (written_both _ _ _ _ _ D)) as W2.
      unfold emits in W1, W2. rewrite W1 in E. rewrite W2, <- E. rewrite Ec, Ew, Eh. fold color w h f cf1 cf2.
      unfold f. rewrite (agree_parts s Hs color w h _ cf1 cf2 Hag). reflexivity.
    - pose proof (std_bytes_with P HP s Hs O op F T im1 pl1 Hop HF Him1 Hfit) as W1.
      pose proof (std_bytes_with P HP s Hs O op F T im2 pl2 Hop HF Him2 Hfit2) as W2.
      unfold emits in W1, W2. rewrite W1 in E. rewrite W2, <- E. rewrite Ec, Ew, Eh. fold color w h f cf1 cf2.
      unfold f. rewrite (agree_parts s Hs color w h _ cf1 cf2 Hag). reflexivity.
  Qed.
End Two.
