(** C61: a file ends at its EOI, whatever follows; its segments can be read without decoding it. *)
From Verif Require Import MAvx2 SAvx2 T81 SFile SEncode SApi SStream SSize SRestart SHuff SDecide PApi PRest PParse PDecide PCount PAll ThmRound ThmBytes ThmAll ThmAvx2 ThmSimd PAvx2 PAvxDct.
From Coq Require Import ZArith List Bool Lia ZifyBool ZifyNat.
Import ListNotations.
Open Scope Z_scope.

(** ** The reader on rendered parts *)
Lemma skip_stuffed d x : (exists m r, x = 255 :: m :: r /\ m <> 0 /\ is_rst m = false) -> skip_coded (stuffed d ++ x) = x.
Proof.
  intros (m & r & -> & H0 & H1). unfold is_rst in H1. induction d as [|b d IH]; cbn [stuffed flat_map app].
  - cbn [skip_coded]. replace (m =? 0) with false by lia. rewrite H1. reflexivity.
  - destruct (b =? 255) eqn:E; cbn [app skip_coded].
    + change (255 =? 255) with true. change (0 =? 0) with true. cbn [orb]. exact IH.
    + rewrite E. exact IH.
Qed.
Lemma skip_stuffed_rst d m x : skip_coded (stuffed d ++ 255 :: 208 + m mod 8 :: x) = skip_coded x.
Proof.
  induction d as [|b d IH]; cbn [stuffed flat_map app].
  - cbn [skip_coded]. change (255 =? 255) with true. pose proof (Z.mod_pos_bound m 8 ltac:(lia)).
    replace ((208 + m mod 8 =? 0) || ((208 <=? 208 + m mod 8) && (208 + m mod 8 <=? 215))) with true by lia. reflexivity.
  - destruct (b =? 255) eqn:E; cbn [app skip_coded].
    + change (255 =? 255) with true. change (0 =? 0) with true. cbn [orb]. exact IH.
    + rewrite E. exact IH.
Qed.
Lemma skip_coded_data ds : forall m x, (exists mk r, x = 255 :: mk :: r /\ mk <> 0 /\ is_rst mk = false) -> skip_coded (coded_data m ds ++ x) = x.
Proof.
  induction ds as [|d ds IH]; intros m x Hx.
  - exact (skip_stuffed [] x Hx).
  - cbn [coded_data]. destruct ds as [|d' ds]; [now apply skip_stuffed|].
    rewrite <- app_assoc. cbn [app]. rewrite skip_stuffed_rst. now apply IH.
Qed.

Definition seen (p : part) : Z * list Z := match p with Segment m d => (m, d) | Scan h _ => (218, h) end.
Lemma length_field_value p : exists hi lo, length_field p = [hi; lo] /\ 256 * hi + lo - 2 = Z.of_nat (length p).
Proof.
  exists ((Z.of_nat (length p) + 2) / 256), ((Z.of_nat (length p) + 2) mod 256). split; [reflexivity|].
  pose proof (Z.div_mod (Z.of_nat (length p) + 2) 256 ltac:(lia)). lia.
Qed.
Lemma read_parts : forall ps fuel rest, Forall part_ok ps -> (length ps < fuel)%nat ->
  read_segments fuel (flat_map render ps ++ 255 :: 217 :: rest) = Some (map seen ps, rest).
Proof.
  induction ps as [|p ps IH]; intros fuel rest Hok Hf; (destruct fuel as [|fuel]; [cbn in Hf; lia|]).
  - reflexivity.
  - apply Forall_cons_iff in Hok as [Hp Hok]. cbn [length] in Hf. specialize (IH fuel rest Hok ltac:(lia)).
    cbn [flat_map map]. destruct p as [m d|h ds]; cbn [render seen part_ok] in *; rewrite <- !app_assoc; cbn [app];
      cbn [read_segments]; change (255 =? 255) with true; cbn [negb].
    + replace (m =? 217) with false by lia. destruct (length_field_value d) as (hi & lo & -> & El). cbn [app].
      cbv zeta. rewrite El, Nat2Z.id. rewrite app_length.
      replace ((Z.of_nat (length d) <? 0) || (Z.of_nat (length d + length (flat_map render ps ++ 255 :: 217 :: rest)) <? Z.of_nat (length d))) with false by lia.
      replace (m =? 218) with false by lia. rewrite skipn_app, skipn_all, Nat.sub_diag. cbn [app skipn]. rewrite IH.
      rewrite firstn_app, firstn_all, Nat.sub_diag. cbn [firstn]. now rewrite app_nil_r.
    + change (218 =? 217) with false. change (218 =? 218) with true. destruct (length_field_value h) as (hi & lo & -> & El). cbn [app].
      cbv zeta. rewrite El, Nat2Z.id. rewrite app_length.
      replace ((Z.of_nat (length h) <? 0) || (Z.of_nat (length h + length (coded_data 0 ds ++ flat_map render ps ++ 255 :: 217 :: rest)) <? Z.of_nat (length h))) with false by lia.
      rewrite skipn_app, skipn_all, Nat.sub_diag. cbn [app skipn]. rewrite skip_coded_data.
      * rewrite IH. rewrite firstn_app, firstn_all, Nat.sub_diag. cbn [firstn]. now rewrite app_nil_r.
      * destruct ps as [|p ps].
        -- exists 217, rest. cbn [flat_map app]. split; [reflexivity|]. split; [lia|reflexivity].
        -- cbn [flat_map]. rewrite <- app_assoc. apply render_start. now apply Forall_cons_iff in Hok.
Qed.
Lemma parts_length ps : (length ps <= length (flat_map render ps))%nat.
Proof.
  induction ps as [|p ps IH]; [apply le_n|]. cbn [flat_map length]. rewrite app_length.
  assert (1 <= length (render p))%nat by (destruct p; cbn [render app length]; lia). lia.
Qed.
Lemma read_rendered ps rest : Forall part_ok ps -> read_file (render_file ps ++ rest) = Some (map seen ps, rest).
Proof.
  intros H. unfold render_file. rewrite <- !app_assoc. cbn [app]. unfold read_file. change ((255 =? 255) && (216 =? 216)) with true. cbv iota.
  apply read_parts; [exact H|]. cbn [length]. rewrite app_length. pose proof (parts_length ps). lia.
Qed.

(** More data after it does not change what is read. *)
Lemma skip_app l x : (2 <= length (skip_coded l))%nat -> skip_coded (l ++ x) = skip_coded l ++ x.
Proof.
  revert l. assert (G : forall n l, (length l <= n)%nat -> (2 <= length (skip_coded l))%nat -> skip_coded (l ++ x) = skip_coded l ++ x); [|intros l; exact (G _ l (le_n _))].
  induction n as [|n IH]; intros [|b l] Hn H; cbn [length] in Hn; try (cbn in H; lia).
  destruct l as [|m l].
  - cbn [skip_coded app] in *. destruct (b =? 255); cbn [length] in H; lia.
  - cbn [length] in Hn. cbn [app]. change (skip_coded (b :: m :: l)) with (if b =? 255 then if (m =? 0) || ((208 <=? m) && (m <=? 215)) then skip_coded l else b :: m :: l else skip_coded (m :: l)) in *.
    change (skip_coded (b :: m :: l ++ x)) with (if b =? 255 then if (m =? 0) || ((208 <=? m) && (m <=? 215)) then skip_coded (l ++ x) else b :: m :: l ++ x else skip_coded ((m :: l) ++ x)).
    destruct (b =? 255).
    + destruct ((m =? 0) || _); [apply IH; [lia|exact H]|reflexivity].
    + apply IH; [cbn [length]; lia|exact H].
Qed.
Lemma read_segments_app : forall fuel fuel' l x segs r, (fuel <= fuel')%nat -> read_segments fuel l = Some (segs, r) -> read_segments fuel' (l ++ x) = Some (segs, r ++ x).
Proof.
  induction fuel as [|fuel IH]; intros fuel' l x segs r Hf H; [discriminate H|]. destruct fuel' as [|fuel']; [lia|].
  cbn [read_segments] in *. destruct l as [|a [|m l]]; [discriminate H|discriminate H|]. cbn [app]. destruct (negb (a =? 255)); [discriminate H|].
  destruct (m =? 217). { injection H as <- <-. reflexivity. }
  destruct l as [|hi [|lo l]]; [discriminate H|discriminate H|]. cbn [app]. cbv zeta in *. set (n := 256 * hi + lo - 2) in *.
  destruct ((n <? 0) || (Z.of_nat (length l) <? n)) eqn:En; [discriminate H|]. rewrite app_length.
  replace ((n <? 0) || (Z.of_nat (length l + length x) <? n)) with false by lia.
  rewrite skipn_app, firstn_app. replace (Z.to_nat n - length l)%nat with 0%nat by lia. cbn [skipn firstn]. rewrite app_nil_r.
  destruct (read_segments fuel (if m =? 218 then skip_coded (skipn (Z.to_nat n) l) else skipn (Z.to_nat n) l)) as [[segs' r']|] eqn:E; [|discriminate H].
  injection H as <- <-.
  assert (G : read_segments fuel' (if m =? 218 then skip_coded (skipn (Z.to_nat n) l ++ x) else skipn (Z.to_nat n) l ++ x) = Some (segs', r' ++ x)).
  { destruct (m =? 218); [|apply IH; [lia|exact E]]. rewrite skip_app; [apply IH; [lia|exact E]|].
    destruct fuel; [discriminate E|]. cbn [read_segments] in E. destruct (skip_coded _) as [|? [|? ?]]; [discriminate E|discriminate E|cbn; lia]. }
  rewrite G. reflexivity.
Qed.
Lemma read_file_app l x segs r : read_file l = Some (segs, r) -> read_file (l ++ x) = Some (segs, r ++ x).
Proof.
  unfold read_file. destruct l as [|a [|b l]]; [discriminate|discriminate|]. cbn [app]. destruct (_ && _); [|discriminate].
  apply read_segments_app. cbn [length]. rewrite app_length. lia.
Qed.
Lemma no_prefix bytes segs k : read_file bytes = Some (segs, []) -> (k < length bytes)%nat -> read_file (firstn k bytes) = None.
Proof.
  intros H Hk. destruct (read_file (firstn k bytes)) as [[s r]|] eqn:E; [exfalso|reflexivity].
  apply (read_file_app _ (skipn k bytes)) in E. rewrite firstn_skipn, H in E. injection E as _ E. symmetry in E. apply app_eq_nil in E as [_ E].
  apply (f_equal (@length _)) in E. rewrite skipn_length in E. cbn [length] in E. lia.
Qed.

(** ** The files of the encoder *)
Section Files.
  Variables (T : transform) (t : tables) (s : settings) (color : jcolor) (pl : planes) (w h : Z).
  Variable Hw : 1 <= w <= 65535.
  Variable Hh : 1 <= h <= 65535.
  Variable Hs : settings_wf s.
  Variable Ht : storable_tables t.
  Notation file := (jpeg_file_with T t s color pl w h).
  Definition file_segments : list (Z * list Z) := map seen (file_parts t s (frame_for s color w h) color (coefficients_of T s color pl w h)).
  Lemma file_reads rest : read_file (file ++ rest) = Some (file_segments, rest).
  Proof. apply (read_rendered _ rest). exact (parts_ok T t s color pl w h Hw Hh Ht (apps_wf s color Hs)). Qed.
  Lemma app_only_app a b : app_only (a ++ b) = app_only a ++ app_only b.
  Proof. apply flat_map_app. Qed.
  Lemma file_apps : app_only file_segments = apps_for s color /\ firstn (length (apps_for s color)) file_segments = map (fun '(nr, d) => (224 + nr, d)) (apps_for s color).
  Proof.
    unfold file_segments, file_parts. rewrite !map_app, map_map. split.
    - rewrite !app_only_app.
      assert (E0 : app_only (map (fun x => seen (let '(nr, data) := x in Segment (224 + nr) data)) (apps_for s color)) = apps_for s color).
      { pose proof (apps_wf s color Hs) as A. induction A as [|[nr d] l [Hn _] A IH]; [reflexivity|]. cbn [map app_only flat_map seen fst] in *.
        replace ((224 <=? 224 + nr) && (224 + nr <=? 239)) with true by lia. cbn [app]. f_equal; [f_equal; lia|exact IH]. }
      assert (E1 : app_only (map seen (if (3 <=? length (fr_comps (frame_for s color w h)))%nat then [dht 0 1 (tb_dc t 1); dht 1 1 (tb_ac t 1)] else [])) = [])
        by (destruct (3 <=? length (fr_comps (frame_for s color w h)))%nat; reflexivity).
      assert (E2 : app_only (map seen (dri (s_restart s))) = []) by (unfold dri; destruct (s_restart s =? 0); reflexivity).
      assert (E3 : app_only (map seen (map (fun si => Scan (scan_header (frame_for s color w h) si) (scan_data t (frame_for s color w h) (s_restart s) (coefficients_of T s color pl w h) si)) (scan_script s color))) = []).
      { induction (scan_script s color) as [|si l IH]; [reflexivity|exact IH]. }
      assert (E4 : app_only (map seen [sof (frame_for s color w h); dqt s 0; dqt s 1; dht 0 0 (tb_dc t 0); dht 1 0 (tb_ac t 0)]) = []).
      { unfold sof. destruct (fr_progressive (frame_for s color w h)); reflexivity. }
      rewrite E0, E1, E2, E3, E4. rewrite !app_nil_r. reflexivity.
    - rewrite firstn_app, map_length, Nat.sub_diag. cbn [firstn]. rewrite app_nil_r. 
      rewrite firstn_all2 by (rewrite map_length; apply le_n). apply map_ext. intros [nr d]. reflexivity.
  Qed.
End Files.

Lemma written_generic P op F T quality calls im pl bytes : op_ok op F -> transform_is F T -> Forall call_wf calls -> valid_buffer P im pl ->
  (s_optimize (settings_of quality calls) = true -> countable (settings_of quality calls) (im_color im) (im_width im) (im_height im)) ->
  exec (encode_image_internal P op (enc_of (settings_of quality calls)) im) = (bytes, Ok tt) ->
  exists t, storable_tables t /\ bytes = jpeg_file_with T t (settings_of quality calls) (im_color im) pl (im_width im) (im_height im).
Proof.
  intros Hop HF C V Hfew E.
  destruct (written_tables _ (settings_of_wf quality calls C) op F T Hop HF P (vb_platform _ _ _ V) _ _ (vb_image _ _ _ V) (vb_fits _ _ _ V) Hfew bytes E) as (t & Ht & Eb & _).
  now exists t.
Qed.
Lemma io_dims im pl : image_ok im pl -> 1 <= im_width im <= 65535 /\ 1 <= im_height im <= 65535.
Proof. intros H. split; [exact (io_width _ _ H)|exact (io_height _ _ H)]. Qed.
Lemma generic_reads P op F T quality calls im pl bytes rest : op_ok op F -> transform_is F T -> Forall call_wf calls -> valid_buffer P im pl ->
  (s_optimize (settings_of quality calls) = true -> countable (settings_of quality calls) (im_color im) (im_width im) (im_height im)) ->
  exec (encode_image_internal P op (enc_of (settings_of quality calls)) im) = (bytes, Ok tt) ->
  reads_as (settings_of quality calls) (im_color im) bytes rest.
Proof.
  intros Hop HF C V Hfew E. destruct (written_generic P op F T quality calls im pl bytes Hop HF C V Hfew E) as (t & Ht & ->).
  destruct (io_dims _ _ (vb_image _ _ _ V)) as [Hw Hh]. pose proof (settings_of_wf quality calls C) as Hs.
  eexists. split; [apply file_reads; assumption|]. now apply file_apps.
Qed.
Lemma input_buffer P data w h c : valid_input P data w h c -> valid_buffer P (image_of P data w h c) (spec_plane c data w).
Proof.
  intros V. split; [apply V|exact (valid_image _ _ _ _ _ V)|]. rewrite image_of_width, image_of_height. apply (valid_fits _ _ _ _ _ V).
Qed.

(** ** C61 *)
(** The reader stops at the end of the file, whatever follows, and finds the application segments of the
    configuration: all of them, in order, unchanged, before everything else. *)
Theorem C61_end : forall P quality calls data w h c bytes rest, valid_call P quality calls data w h c ->
  exec (run_encode P quality calls data w h c) = (bytes, Ok tt) -> reads_as (settings_of quality calls) (spec_color c) bytes rest.
Proof.
  intros P quality calls data w h c bytes rest [C V Hfew] E. rewrite (run_encode_eq _ _ _ _ _ _ _ C V) in E.
  rewrite <- (image_of_color P data w h c).
  apply (generic_reads P default_operations fdct_pure int_dct quality calls _ (spec_plane c data w)); try assumption; [exact default_op_ok|exact fdct_is_int_dct|now apply input_buffer|].
  rewrite image_of_color, image_of_width, image_of_height. exact Hfew.
Qed.
Theorem C61_end_image : forall P quality calls im pl bytes rest, Forall call_wf calls -> valid_buffer P im pl ->
  (s_optimize (settings_of quality calls) = true -> countable (settings_of quality calls) (im_color im) (im_width im) (im_height im)) ->
  exec (run_encode_image P quality calls im) = (bytes, Ok tt) -> reads_as (settings_of quality calls) (im_color im) bytes rest.
Proof.
  intros P quality calls im pl bytes rest C V Hfew E. rewrite run_encode_image_eq in E by assumption.
  exact (generic_reads P default_operations fdct_pure int_dct quality calls im pl bytes rest default_op_ok fdct_is_int_dct C V Hfew E).
Qed.
Theorem C61_end_simd : forall P quality calls data w h c bytes rest, valid_call P quality calls data w h c ->
  exec (run_encode_avx2 P quality calls data w h c) = (bytes, Ok tt) -> reads_as (settings_of quality calls) (spec_color c) bytes rest.
Proof.
  intros P quality calls data w h c bytes rest [C V Hfew] E. rewrite (run_avx2_eq _ _ _ _ _ _ _ C V) in E.
  rewrite <- (image_of_color P data w h c).
  apply (generic_reads P avx2_operations avx2_pure avx2_dct quality calls _ (spec_plane c data w)); try assumption; [exact avx2_op_ok|exact avx2_is_dct|now apply input_buffer|].
  rewrite image_of_color, image_of_width, image_of_height. exact Hfew.
Qed.
(** A file that was cut off anywhere is recognized: there is no shorter file in it. *)
Theorem C61_truncated : forall P quality calls data w h c bytes k, valid_call P quality calls data w h c ->
  exec (run_encode P quality calls data w h c) = (bytes, Ok tt) -> (k < length bytes)%nat -> read_file (firstn k bytes) = None.
Proof.
  intros P quality calls data w h c bytes k VC E Hk. destruct (C61_end _ _ _ _ _ _ _ _ [] VC E) as (segs & R & _).
  rewrite app_nil_r in R. now apply (no_prefix bytes segs).
Qed.
Theorem C61_truncated_simd : forall P quality calls data w h c bytes k, valid_call P quality calls data w h c ->
  exec (run_encode_avx2 P quality calls data w h c) = (bytes, Ok tt) -> (k < length bytes)%nat -> read_file (firstn k bytes) = None.
Proof.
  intros P quality calls data w h c bytes k VC E Hk. destruct (C61_end_simd _ _ _ _ _ _ _ _ [] VC E) as (segs & R & _).
  rewrite app_nil_r in R. now apply (no_prefix bytes segs).
Qed.
(** Files written one after the other to the same writer are told apart again, byte by byte. *)
Lemma split_more : forall f f' l fs, (f <= f')%nat -> split_files f l = Some fs -> split_files f' l = Some fs.
Proof.
  induction f as [|f IH]; intros f' l fs Hf H.
  - destruct l; [|discriminate H]. destruct f'; exact H.
  - destruct f' as [|f']; [lia|]. cbn [split_files] in *. destruct l as [|a l]; [exact H|]. destruct (read_file (a :: l)) as [[sg r]|]; [|discriminate H].
    destruct (split_files f r) as [gs|] eqn:E; [|discriminate H]. rewrite (IH f' r gs ltac:(lia) E). exact H.
Qed.
Lemma split_concat files : Forall (fun f => exists segs, forall rest, read_file (f ++ rest) = Some (segs, rest)) files ->
  split_files (length (concat files)) (concat files) = Some files.
Proof.
  intros H. enough (G : split_files (length files) (concat files) = Some files).
  { eapply split_more; [|exact G]. clear G. induction H as [|f fs [segs Hr] H IH]; [apply le_n|]. cbn [concat length]. rewrite app_length.
    assert (1 <= length f)%nat by (destruct f; [specialize (Hr []); discriminate Hr|cbn; lia]). lia. }
  induction H as [|f fs [segs Hr] H IH]; [reflexivity|]. cbn [length concat].
  assert (Hn : f <> []) by (intros ->; specialize (Hr []); discriminate Hr).
  cbn [split_files]. destruct (f ++ concat fs) as [|a l] eqn:El.
  { apply app_eq_nil in El as [El _]. contradiction. }
  rewrite <- El, Hr, IH. do 2 f_equal. rewrite app_length, Nat.add_sub. rewrite firstn_app, firstn_all, Nat.sub_diag. cbn [firstn]. apply app_nil_r.
Qed.
Lemma run_jobs_ok P : forall js bytes, exec (run_jobs P js) = (bytes, Ok tt) ->
  exists files, bytes = concat files /\ Forall2 (fun j f => exec (run_job P j) = (f, Ok tt)) js files.
Proof.
  induction js as [|j js IH]; intros bytes E; cbn [run_jobs] in E.
  - injection E as <-. exists []. split; [reflexivity|constructor].
  - rewrite exec_bind in E. destruct (exec (run_job P j)) as [f [[]|e|r]] eqn:Ej; try discriminate E.
    destruct (exec (run_jobs P js)) as [o r] eqn:Eo. injection E as <- ->. destruct (IH o eq_refl) as (files & -> & F).
    exists (f :: files). split; [reflexivity|]. now constructor.
Qed.
Theorem C61_stream : forall P js bytes,
  Forall (fun j => valid_call P (jb_quality j) (jb_calls j) (jb_data j) (jb_width j) (jb_height j) (jb_color j)) js ->
  exec (run_jobs P js) = (bytes, Ok tt) ->
  files_of bytes = Some (map (fun j => fst (exec (run_job P j))) js).
Proof.
  intros P js bytes V E. destruct (run_jobs_ok P js bytes E) as (files & -> & F).
  assert (Em : map (fun j => fst (exec (run_job P j))) js = files).
  { clear - F. induction F as [|j f js files H F IH]; [reflexivity|]. cbn [map]. rewrite H, IH. reflexivity. }
  rewrite Em. apply split_concat. clear Em E. revert V. induction F as [|j f js files H F IH]; intros V; [constructor|].
  apply Forall_cons_iff in V as [V1 V]. constructor; [|now apply IH].
  destruct V1 as [C V1 Hfew]. pose proof H as E. unfold run_job in E. rewrite (run_encode_eq _ _ _ _ _ _ _ C V1) in E.
  destruct (written_generic P default_operations fdct_pure int_dct _ _ _ _ _ default_op_ok fdct_is_int_dct C (input_buffer _ _ _ _ _ V1)
    ltac:(rewrite image_of_color, image_of_width, image_of_height; exact Hfew) E) as (t & Ht & ->).
  destruct (io_dims _ _ (vb_image _ _ _ (input_buffer _ _ _ _ _ V1))) as [Hw Hh]. eexists. intros rest. apply file_reads; try assumption.
  exact (settings_of_wf _ _ C).
Qed.

(** A concrete stream of two files; the first holds a segment that looks like the end of a file and the start of
    another one; read alone, with garbage after it. *)
Definition ex_jobs : list job :=
  [ {| jb_quality := 60; jb_calls := [CSegment 1 [255; 217; 255; 216]]; jb_data := ex_data; jb_width := 3; jb_height := 2; jb_color := Rgb |};
    {| jb_quality := 90; jb_calls := [CProgressive true; CRestart 1]; jb_data := ex_data; jb_width := 3; jb_height := 2; jb_color := Rgb |} ].
Example C61_case :
  Forall (fun j => valid_call debug64 (jb_quality j) (jb_calls j) (jb_data j) (jb_width j) (jb_height j) (jb_color j)) ex_jobs /\
  (let '(bytes, r) := exec (run_jobs debug64 ex_jobs) in
   r = Ok tt /\ option_map (@length _) (files_of bytes) = Some 2%nat /\
   option_map (fun p => (app_only (fst p), length (snd p))) (read_file (fst (exec (run_job debug64 (nth 0 ex_jobs (nth 0 ex_jobs (Build_job 0 [] [] 0 0 Luma))))) ++ [255; 217; 1]))
   = Some ([(0, [74; 70; 73; 70; 0; 1; 2; 0; 0; 1; 0; 1; 0; 0]); (1, [255; 217; 255; 216])], 3%nat)).
Proof.
  split.
  - constructor; [|constructor; [|constructor]]; (constructor; [|exact ex_valid|discriminate]).
    + constructor; [|constructor]. cbn. repeat split; try lia; repeat constructor; unfold is_u8; lia.
    + constructor; [exact I|constructor; [cbn; unfold is_u16; lia|constructor]].
  - vm_compute. split; [reflexivity|]. split; reflexivity.
Qed.
