(** Images of different sizes with the same grid of blocks (C67). *)
From Verif Require Import T81 SFile SSize SRestart SDecide PScan PScans Spec PImage PGeom PInter PFile PWhole PTop PEncode PApi PRound PBytes PBytesI PBytesF PPlat POpt PRest PDecide PCount PAll PSame.
From Coq Require Import ZArith List Bool Lia ZifyBool.
Import ListNotations.
Open Scope Z_scope.

Lemma cdiv_spec v d : 0 < d -> (cdiv v d - 1) * d < v <= cdiv v d * d.
Proof. intros Hd. rewrite <- ceil_div_cdiv by exact Hd. now apply ceil_div_spec. Qed.
Lemma cdiv_unique v d n : 0 < d -> (n - 1) * d < v <= n * d -> cdiv v d = n.
Proof. intros Hd H. pose proof (cdiv_spec v d Hd). nia. Qed.
Lemma cdiv_twice w a b : 0 < a -> 0 < b -> cdiv w (a * b) = cdiv (cdiv w a) b.
Proof.
  intros Ha Hb. apply cdiv_unique; [nia|]. pose proof (cdiv_spec w a Ha). pose proof (cdiv_spec (cdiv w a) b Hb).
  generalize dependent (cdiv (cdiv w a) b). generalize dependent (cdiv w a). intros m H n H0. nia.
Qed.

Section Grid.
  Variable s : settings.
  Variable Hs : settings_wf s.
  Variables (op : operations) (F : list Z -> list Z) (T : transform).
  Variable Hop : op_ok op F.
  Variable HF : transform_is F T.
  Variables (im1 im2 : image) (pl1 pl2 : planes).
  Variable Him1 : image_ok im1 pl1.
  Variable Him2 : image_ok im2 pl2.
  Variable Ec : im_color im2 = im_color im1.
  Let color := im_color im1.
  Let w1 := im_width im1.
  Let h1 := im_height im1.
  Let w2 := im_width im2.
  Let h2 := im_height im2.
  Variable Ew : cdiv w2 8 = cdiv w1 8.
  Variable Eh : cdiv h2 8 = cdiv h1 8.
  Let f1 := frame_for s color w1 h1.
  Let f2 := frame_for s color w2 h2.
  Let cf1 := spec_cf s T im1 pl1.
  Let cf2 := spec_cf s T im2 pl2.
  Variable Hcf : forall ci c y x k, nth_error (comps_of (s_sampling s) color) ci = Some c -> 0 <= y -> 0 <= x -> 0 <= k < 64 ->
    expected T s color pl1 w1 h1 ci c y x k = expected T s color pl2 w2 h2 ci c y x k.
  Let e := enc_of s.
  Let cs := init_components (s_sampling s) color.
  Let mh := max_h (s_sampling s) color.
  Let mv := max_v (s_sampling s) color.
  Let q0 := qtable_of (s_luma s) (e_quality e) true.
  Let q1 := qtable_of (s_chroma s) (e_quality e) false.

  Lemma cf_grid ci y x k : 0 <= y -> 0 <= x -> 0 <= k < 64 -> cf1 ci y x k = cf2 ci y x k.
  Proof.
    intros Hy Hx Hk. unfold cf1, cf2, spec_cf. rewrite Ec. fold color w1 h1 w2 h2. cbn [frame_for fr_comps].
    destruct (nth_error (comps_of (s_sampling s) color) ci) as [c|] eqn:Hc; [|reflexivity]. now apply Hcf.
  Qed.
  Lemma dims_grid i c : nth_error cs i = Some c -> nrows (im_height im2) mv c = nrows (im_height im1) mv c /\ ncols (im_width im2) mh c = ncols (im_width im1) mh c.
  Proof.
    intros _. fold w1 w2 h1 h2. unfold nrows, ncols. rewrite !(ceil_div_cdiv _ 8) by lia. rewrite Ew, Eh. split; reflexivity.
  Qed.
  Lemma units_grid i c : nth_error cs i = Some c -> units im1 pl1 F mh mv q0 q1 i c = units im2 pl2 F mh mv q0 q1 i c.
  Proof.
    intros Hi. unfold units. destruct (dims_grid i c Hi) as [-> ->]. apply map_ext_in. intros [y x] Hyx. apply in_grid in Hyx as [Hy Hx]. f_equal.
    apply zn_ext64; [apply qblock_pure_length|apply qblock_pure_length|]. intros k Hk.
    pose proof (spec_cf_ok s Hs F T im1 pl1 HF i c y x k Hi Hk) as E1.
    pose proof (spec_cf_ok s Hs F T im2 pl2 HF i c y x k) as E2. rewrite Ec in E2. specialize (E2 Hi Hk).
    fold e in E1, E2. fold color mh mv q0 q1 cf1 in E1. fold color mh mv q0 q1 cf2 in E2. rewrite E1, E2.
    apply cf_grid; lia.
  Qed.
  Lemma blocks_grid : all_blocks im1 pl1 F cs mh mv q0 q1 = all_blocks im2 pl2 F cs mh mv q0 q1.
  Proof.
    unfold all_blocks. apply map_ext_in. intros [i c] Hi. apply in_enum in Hi as [_ Hi]. f_equal. now apply units_grid.
  Qed.
  Lemma opt_tables_grid P d0 a0 d1 a1 bd0 ba0 bd1 ba1 :
    opt_tables P im1 pl1 F e (s_luma s) (s_chroma s) d0 a0 d1 a1 bd0 ba0 bd1 ba1 ->
    opt_tables P im2 pl2 F e (s_luma s) (s_chroma s) d0 a0 d1 a1 bd0 ba0 bd1 ba1.
  Proof.
    intros (H1 & V0 & V1 & V2 & V3 & H2). unfold opt_tables. rewrite Ec. change (e_sampling e) with (s_sampling s) in *.
    fold color in H1, H2 |- *. fold cs mh mv q0 q1 in H1, H2 |- *.
    split; [rewrite <- blocks_grid; exact H1|]. split; [exact V0|]. split; [exact V1|]. split; [exact V2|]. split; [exact V3|].
    intros i c Hi. specialize (H2 i c Hi).
    pose proof Hi as Hi'. apply in_enum in Hi' as [_ Hc]. rewrite Hc in H2 |- *.
    rewrite <- (units_grid _ _ Hc). exact H2.
  Qed.
  Lemma written_grid P d0 d1 bd0 bd1 : dc_written s F P im1 pl1 d0 d1 bd0 bd1 -> dc_written s F P im2 pl2 d0 d1 bd0 bd1.
  Proof.
    intros H i c Hi. rewrite Ec in Hi |- *. change (e_sampling (enc_of s)) with (s_sampling s) in *. fold color in Hi |- *.
    specialize (H i c Hi). change (e_sampling (enc_of s)) with (s_sampling s) in *. fold color in H.
    fold e mh mv q0 q1 in H |- *. rewrite <- (units_grid i c Hi). exact H.
  Qed.

  Lemma wide_grid ci c : nth_error (comps_of (s_sampling s) color) ci = Some c -> blocks_wide f2 c = blocks_wide f1 c /\ blocks_high f2 c = blocks_high f1 c.
  Proof.
    intros Hc. assert (Hcs : comps_ok cs mh mv) by apply init_components_ok.
    assert (exists c', nth_error cs ci = Some c' /\ c = comp_of c') as (c' & Hc' & ->).
    { pose proof (frame_for_eq s color w1 h1) as E. apply (f_equal fr_comps) in E. cbn [frame_of frame_for fr_comps] in E. rewrite <- E in Hc.
      rewrite nth_error_map in Hc. change (e_sampling (enc_of s)) with (s_sampling s) in Hc. fold cs in Hc. destruct (nth_error cs ci) as [c'|]; [|discriminate Hc]. injection Hc as <-. eauto. }
    unfold f1, f2. rewrite <- !frame_for_eq. change (e_sampling (enc_of s)) with (s_sampling s). fold cs.
    rewrite !(blocks_wide_eq _ _ _ cs mh mv ci c' Hcs Hc'), !(blocks_high_eq _ _ _ cs mh mv ci c' Hcs Hc').
    destruct (dims_grid ci c' Hc') as [D1 D2]. fold h1 h2 in D1. fold w1 w2 in D2. split; assumption.
  Qed.
  Lemma mcus_grid si : mcus_of f2 si = mcus_of f1 si.
  Proof.
    unfold mcus_of. change (fr_comps f2) with (fr_comps f1).
    assert (G : forall cl, interleaved_mcus f2 cl = interleaved_mcus f1 cl).
    { intros cl. unfold interleaved_mcus, mcus_wide, mcus_high. change (vmax f2) with (vmax f1). change (hmax f2) with (hmax f1).
      cbn [f1 f2 frame_for fr_width fr_height].
      assert (Hh : 1 <= hmax f1 /\ 1 <= vmax f1).
      { destruct color eqn:Ecol; unfold f1; rewrite ?Ecol; destruct (s_sampling s) eqn:Es; unfold frame_for, hmax, vmax; cbn [fr_comps]; rewrite ?Ecol, ?Es; vm_compute; split; discriminate. }
      rewrite !(cdiv_twice _ 8) by lia. rewrite Ew, Eh. reflexivity. }
    assert (S : forall ci c, nth_error (fr_comps f1) ci = Some c -> single_mcus f2 ci c = single_mcus f1 ci c).
    { intros ci c Hc. unfold single_mcus. destruct (wide_grid ci c Hc) as [-> ->]. reflexivity. }
    assert (A : forall l p, In p (flat_map (fun ci => match nth_error (fr_comps f1) ci with Some c => [(ci, c)] | None => [] end) l) -> nth_error (fr_comps f1) (fst p) = Some (snd p)).
    { intros l p Hp. apply in_flat_map in Hp as (ci & _ & Hp). destruct (nth_error (fr_comps f1) ci) as [c|] eqn:Hc; [|destruct Hp]. destruct Hp as [<-|[]]. exact Hc. }
    specialize (A (si_comps si)). set (cl := flat_map _ _) in *. clearbody cl. destruct cl as [|[i c] [|p cl]]; [apply G| |apply G].
    cbn [scan_mcus]. apply S. exact (A (i, c) (or_introl eq_refl)).
  Qed.
  (** The part of a file after the SOF segment. *)
  Lemma scans_grid t : map (fun si => Scan (scan_header f2 si) (scan_data t f2 (s_restart s) cf2 si)) (scan_script s color)
                     = map (fun si => Scan (scan_header f1 si) (scan_data t f1 (s_restart s) cf1 si)) (scan_script s color).
  Proof.
    apply map_ext_in. intros si Hsi. f_equal. unfold scan_data. rewrite mcus_grid.
    destruct (script_band s color si Hs Hsi) as (B1 & B2 & _).
    apply map_ext_in. intros m Hm. f_equal. symmetry. apply encode_units_agree; [lia|lia|].
    intros ci y x k Hu Hk.
    apply in_concat in Hu as (mcu & Hmcu & Hu).
    pose proof (intervals_in _ _ _ Hm mcu Hmcu) as Hin.
    assert (0 <= y /\ 0 <= x) as [Hy Hx]; [|apply cf_grid; assumption]. clear - Hin Hu.
    unfold mcus_of in Hin. set (cl := flat_map _ _) in Hin. clearbody cl.
    assert (G : In mcu (interleaved_mcus f1 cl) -> 0 <= y /\ 0 <= x).
    { intros Hi. unfold interleaved_mcus in Hi. apply in_flat_map in Hi as (my & Hmy & Hi). apply in_map_iff in Hi as (mx & <- & Hmx).
      apply in_flat_map in Hu as ([i c] & Hic & Hu). apply in_flat_map in Hu as (v & Hv & Hu). apply in_map_iff in Hu as (hh & E & Hhh).
      injection E as <- <- <-. clear - Hmy Hmx Hv Hhh. unfold upto in *. apply in_map_iff in Hmy as (n1 & <- & _), Hmx as (n2 & <- & _).
      apply in_map_iff in Hv as (n3 & <- & Hv), Hhh as (n4 & <- & Hhh). apply in_seq in Hv, Hhh. nia. }
    destruct cl as [|[i c] [|p cl]]; [exact (G Hin)| |exact (G Hin)].
    clear G. unfold scan_mcus, single_mcus in Hin. apply in_flat_map in Hin as (y' & Hy & Hin). apply in_map_iff in Hin as (x' & <- & Hx).
    destruct Hu as [E|[]]. injection E as <- <- <-. unfold upto in Hy, Hx. apply in_map_iff in Hy as (n1 & <- & _), Hx as (n2 & <- & _). lia.
  Qed.

  Theorem same_grid P bytes : plat_ok P -> w1 * h1 < 2 ^ (ubits P - 1) -> w2 * h2 < 2 ^ (ubits P - 1) ->
    (s_optimize s = true -> countable s color w1 h1) ->
    exec (encode_image_internal P op (enc_of s) im1) = (bytes, Ok tt) ->
    exists t, bytes = render_file (file_parts t s f1 color cf1) /\
      exec (encode_image_internal P op (enc_of s) im2) = (render_file (file_parts t s f2 color cf2), Ok tt).
  Proof.
    intros HP Hfit Hfit2 Hfew E.
    destruct (s_optimize s) eqn:O.
    - destruct (opt_tables_done s Hs O op F Hop P im1 pl1 bytes HP Him1 Hfit (Hfew eq_refl) E) as (d0 & a0 & d1 & a1 & bd0 & ba0 & bd1 & ba1 & Ht).
      assert (D : dc_written s F P im1 pl1 d0 d1 bd0 bd1).
      { destruct (dbg P) eqn:Hd.
        - destruct (covered_dec T s color pl1 w1 h1) as [C|C]; unfold color, w1, h1 in C;
            rewrite <- (covered_iff s Hs O op F T Hop HF im1 pl1 Him1) in C.
          + exact (covered_written s F P im1 pl1 _ _ _ _ _ _ _ _ Ht C).
          + exfalso. destruct (debug_panics s Hs O op F T Hop HF im1 pl1 Him1 (Hfew eq_refl) P HP Hfit Hd _ _ _ _ _ _ _ _ Ht C) as (b & X).
            rewrite X in E. discriminate E.
        - exact (release_written s Hs O op F Hop im1 pl1 Him1 (Hfew eq_refl) P _ _ _ _ _ _ _ _ Hd Ht). }
      pose proof (opt_bytes_written s Hs O op F T Hop HF P im1 pl1 _ _ _ _ _ _ _ _ HP Him1 Hfit Ht D) as W1.
      pose proof (opt_bytes_written s Hs O op F T Hop HF P im2 pl2 _ _ _ _ _ _ _ _ HP Him2 Hfit2 (opt_tables_grid _ _ _ _ _ _ _ _ _ Ht) (written_grid _ _ _ _ _ D)) as W2.
      unfold emits in W1, W2. rewrite W1 in E. injection E as E. eexists. split; [symmetry; exact E|]. rewrite W2, Ec. reflexivity.
    - pose proof (std_bytes_with P HP s Hs O op F T im1 pl1 Hop HF Him1 Hfit) as W1.
      pose proof (std_bytes_with P HP s Hs O op F T im2 pl2 Hop HF Him2 Hfit2) as W2.
      unfold emits in W1, W2. rewrite W1 in E. injection E as E. eexists. split; [symmetry; exact E|]. rewrite W2, Ec. reflexivity.
  Qed.
End Grid.
