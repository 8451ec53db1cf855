(** Everything the encoder writes are bytes, and the scans of the reference encoder, for every configuration. *)
From Verif Require Import T81 SFile SEncode SSize SHuff SRestart SDecide PRest PParts PParse PBytes PSegments PCode PDecide PCount ThmScan ThmRound ThmHuff ThmBytes.
From Coq Require Import ZArith List Bool Lia ZifyBool ZifyNat.
Import ListNotations.
Open Scope Z_scope.
Local Ltac Zify.zify_post_hook ::= Z.div_mod_to_equations.

Lemma u16_bytes_ok v : 0 <= v < 65536 -> Forall is_u8 (u16_bytes v).
Proof. intros H. unfold u16_bytes. constructor; [unfold is_u8; lia|]. constructor; [unfold is_u8; lia|constructor]. Qed.
Lemma group_len {A} k : forall fuel (l : list A) g, In g (group fuel k l) -> (length g <= k)%nat.
Proof.
  induction fuel as [|fuel IH]; intros l g H; [destruct H|]. cbn [group] in H. destruct l; [destruct H|].
  destruct H as [<-|H]; [apply firstn_le_length|eauto].
Qed.
Lemma pack_ok bits : Forall is_u8 (pack bits).
Proof.
  unfold pack. apply Forall_forall. intros b Hb. apply in_map_iff in Hb as (g & <- & Hg). apply group_len in Hg.
  pose proof (value_of_range g) as H. unfold is_u8. split; [lia|].
  assert (2 ^ Z.of_nat (length g) <= 2 ^ 8) by (apply Z.pow_le_mono_r; lia). change (2 ^ 8) with 256 in *. lia.
Qed.
Lemma stuffed_ok d : Forall is_u8 d -> Forall is_u8 (stuffed d).
Proof.
  intros H. unfold stuffed. apply Forall_flat_map. eapply Forall_impl; [|exact H]. intros b Hb.
  destruct (b =? 255); repeat constructor; unfold is_u8 in *; lia.
Qed.
Lemma coded_ok ds : Forall (Forall is_u8) ds -> forall m, Forall is_u8 (coded_data m ds).
Proof.
  induction 1 as [|d ds Hd Hds IH]; intros m; [constructor|]. destruct ds as [|d2 ds].
  - now apply stuffed_ok.
  - change (coded_data m (d :: d2 :: ds)) with (stuffed d ++ [255; 208 + m mod 8] ++ coded_data (m + 1) (d2 :: ds)).
    apply Forall_app. split; [now apply stuffed_ok|]. apply Forall_app. split; [|apply IH].
    constructor; [unfold is_u8; lia|]. constructor; [unfold is_u8; lia|constructor].
Qed.
Definition part_bytes (p : part) : Prop :=
  match p with
  | Segment m d => is_u8 m /\ Forall is_u8 d
  | Scan hd ds => Forall is_u8 hd /\ Forall (Forall is_u8) ds
  end.
Lemma render_ok p : part_ok p /\ part_bytes p -> Forall is_u8 (render p).
Proof.
  destruct p as [m d|hd ds]; intros H; cbn [render part_bytes part_ok] in *.
  - destruct H as ((L1 & L) & Hm & Hd). apply Forall_app. split; [constructor; [unfold is_u8; lia|constructor; [exact Hm|constructor]]|].
    apply Forall_app. split; [|exact Hd]. unfold length_field. constructor; [unfold is_u8; lia|constructor; [unfold is_u8; lia|constructor]].
  - destruct H as ((L & L1) & Hd & Hs). apply Forall_app. split; [constructor; [unfold is_u8; lia|constructor; [unfold is_u8; lia|constructor]]|].
    apply Forall_app. split; [unfold length_field; constructor; [unfold is_u8; lia|constructor; [unfold is_u8; lia|constructor]]|].
    apply Forall_app. split; [exact Hd|now apply coded_ok].
Qed.
Lemma render_file_ok ps : Forall (fun p => part_ok p /\ part_bytes p) ps -> Forall is_u8 (render_file ps).
Proof.
  intros H. unfold render_file. apply Forall_app. split; [constructor; [unfold is_u8; lia|constructor; [unfold is_u8; lia|constructor]]|].
  apply Forall_app. split; [|constructor; [unfold is_u8; lia|constructor; [unfold is_u8; lia|constructor]]].
  apply Forall_flat_map. eapply Forall_impl; [|exact H]. exact render_ok.
Qed.

Lemma script_band s color si : settings_wf s -> In si (scan_script s color) -> 0 <= si_ss si <= 63 /\ 0 <= si_se si <= 63 /\
  (length (si_comps si) <= 4)%nat.
Proof.
  intros Hs H. unfold scan_script in H. destruct (factors (s_sampling s)) as [hh vv].
  assert (L : (length (comps_of (s_sampling s) color) <= 4)%nat).
  { unfold comps_of. destruct (factors (s_sampling s)). destruct color; cbn [length]; lia. }
  assert (S : forall b, In si (single_scans (length (comps_of (s_sampling s) color)) b) ->
    si_ss si = fst b /\ si_se si = snd b /\ (length (si_comps si) <= 4)%nat).
  { intros b Hb. apply in_single_scans in Hb as (ci & -> & _ & -> & ->). cbn [length]. auto with arith. }
  destruct (s_scans s) as [n|] eqn:En.
  - pose proof (sw_scans _ Hs) as Hn. rewrite En in Hn. apply in_app_or in H as [H|H].
    + apply S in H as (-> & -> & ?). cbn [fst snd]. lia.
    + apply in_flat_map in H as (b & Hb & H). apply S in H as (-> & -> & ?). 
      unfold spectral_bands in Hb. apply in_map_iff in Hb as (i & <- & Hi). unfold upto in Hi. apply in_map_iff in Hi as (k & <- & Hk).
      apply in_seq in Hk. cbn [fst snd].
      assert (D : (n - 1) * (64 / (n - 1)) <= 64 /\ 1 <= 64 / (n - 1)).
      { split; [apply Z.mul_div_le; lia|]. apply Z.div_le_lower_bound; lia. }
      generalize dependent (64 / (n - 1)). intros q [D1 D2].
      assert (E1 : 0 <= Z.of_nat k <= n - 2) by lia. generalize dependent (Z.of_nat k). intros i E1.
      assert (M : 0 <= i * q <= (n - 2) * q) by nia. assert (M2 : (n - 2) * q + q <= 64) by nia.
      split; [|split; [|assumption]].
      * destruct (i =? 0); [lia|]. lia.
      * destruct (i =? n - 2) eqn:E; [lia|]. assert ((i + 1) * q <= (n - 2) * q) by nia. nia.
  - destruct (negb (s_optimize s) && (hh <=? 2) && (vv <=? 2)).
    + destruct H as [<-|[]]. cbn [si_ss si_se si_comps]. rewrite seq_length. lia.
    + apply S in H as (-> & -> & ?). cbn [fst snd]. lia.
Qed.

Section Bytes.
  Variable T : transform.
  Variable t : tables.
  Variable s : settings.
  Variable Hs : settings_wf s.
  Variable color : jcolor.
  Variable pl : planes.
  Variable w h : Z.
  Variable Hw : 1 <= w <= 65535.
  Variable Hh : 1 <= h <= 65535.
  Variable Hst : storable_tables t.
  Variable Hbt : byte_tables t.
  Let f := frame_for s color w h.
  Let cf := coefficients_of T s color pl w h.
  Let ps := file_parts t s f color cf.

  Lemma comp_bytes c : In c (fr_comps f) -> 0 <= co_id c <= 3 /\ 1 <= co_h c <= 4 /\ 1 <= co_v c <= 4 /\ 0 <= co_tq c <= 1.
  Proof.
    unfold f. cbn [frame_for fr_comps]. unfold comps_of. destruct (s_sampling s); cbn [factors]; destruct color; cbn [In];
      intuition (subst; cbn; lia).
  Qed.
  Lemma comp_count : (length (fr_comps f) <= 4)%nat.
  Proof. unfold f. cbn [frame_for fr_comps]. unfold comps_of. destruct (factors (s_sampling s)). destruct color; cbn [length]; lia. Qed.

  Lemma file_part_bytes : Forall part_bytes ps.
  Proof.
    unfold ps, file_parts. apply Forall_app. split; [|apply Forall_app; split; [|apply Forall_app; split; [|apply Forall_app; split]]].
    - apply Forall_forall. intros p Hp. apply in_map_iff in Hp as ([nr d] & <- & Hin). cbn [part_bytes].
      destruct Hin as [E|Hin].
      + injection E as <- <-. split; [unfold is_u8; lia|]. pose proof (sw_density _ Hs) as Hd. unfold jfif. apply Forall_app. split.
        { repeat (constructor; [unfold is_u8; lia|]). constructor. }
        apply Forall_app. split; [|repeat (constructor; [unfold is_u8; lia|]); constructor].
        destruct (s_density s); cbn [density_wf] in Hd; (constructor; [unfold is_u8; lia|]); apply Forall_app; split;
          apply u16_bytes_ok; unfold is_u16 in *; lia.
      + apply in_app_or in Hin as [Hin|Hin].
        * assert (X : nr = 14 /\ (d = adobe 0 \/ d = adobe 2)).
          { destruct color; cbn [In] in Hin; intuition congruence. }
          destruct X as [-> X]. split; [unfold is_u8; lia|].
          destruct X as [-> | ->]; unfold adobe; repeat (constructor; [unfold is_u8; lia|]); constructor.
        * pose proof (sw_segs _ Hs) as G. rewrite Forall_forall in G. destruct (G _ Hin) as (H1 & H2 & H3). cbn [fst snd] in *.
          split; [unfold is_u8; lia|exact H3].
    - assert (D : forall class dest hh, 0 <= class <= 1 -> 0 <= dest <= 1 -> Forall is_u8 (fst hh) -> Forall is_u8 (snd hh) -> part_bytes (dht class dest hh)).
      { intros class dest hh H1 H2 H3 H4. split; [unfold is_u8; lia|]. constructor; [unfold is_u8; lia|]. apply Forall_app. auto. }
      assert (Q : forall d, 0 <= d <= 1 -> part_bytes (dqt s d)).
      { intros d Hd. split; [unfold is_u8; lia|]. constructor; [unfold is_u8; lia|]. apply Forall_forall. intros v Hv.
        apply in_map_iff in Hv as ([y x] & <- & _). unfold is_u8. apply Z.mod_pos_bound. lia. }
      constructor; [|constructor; [apply Q; lia|constructor; [apply Q; lia|constructor; [apply D; try lia; apply Hbt|constructor; [apply D; try lia; apply Hbt|constructor]]]]].
      unfold sof. split; [destruct (fr_progressive f); unfold is_u8; lia|]. constructor; [unfold is_u8; lia|].
      apply Forall_app. split; [apply u16_bytes_ok; cbn [f frame_for fr_height]; lia|].
      apply Forall_app. split; [apply u16_bytes_ok; cbn [f frame_for fr_width]; lia|].
      apply Forall_app. split; [constructor; [pose proof comp_count; unfold is_u8; lia|constructor]|].
      apply Forall_flat_map, Forall_forall. intros c Hc. destruct (comp_bytes c Hc) as (H1 & H2 & H3 & H4).
      constructor; [unfold is_u8; lia|]. constructor; [unfold is_u8; lia|]. constructor; [unfold is_u8; lia|constructor].
    - destruct (3 <=? length (fr_comps f))%nat; [|constructor].
      assert (D : forall class dest hh, 0 <= class <= 1 -> 0 <= dest <= 1 -> Forall is_u8 (fst hh) -> Forall is_u8 (snd hh) -> part_bytes (dht class dest hh)).
      { intros class dest hh H1 H2 H3 H4. split; [unfold is_u8; lia|]. constructor; [unfold is_u8; lia|]. apply Forall_app. auto. }
      constructor; [apply D; try lia; apply Hbt|constructor; [apply D; try lia; apply Hbt|constructor]].
    - unfold dri. destruct (s_restart s =? 0); [constructor|]. constructor; [|constructor].
      split; [unfold is_u8; lia|]. apply u16_bytes_ok. apply (sw_restart _ Hs).
    - apply Forall_forall. intros p Hp. apply in_map_iff in Hp as (si & <- & Hin). split.
      + destruct (script_band s color si Hs Hin) as (B1 & B2 & B3). unfold scan_header.
        apply Forall_app. split; [constructor; [unfold is_u8; lia|constructor]|]. apply Forall_app. split.
        * apply Forall_flat_map, Forall_forall. intros ci Hci. destruct (nth_error (fr_comps f) ci) as [c|] eqn:E; [|constructor].
          apply nth_error_In in E. destruct (comp_bytes c E) as (H1 & H2 & H3 & H4).
          constructor; [unfold is_u8; lia|]. constructor; [unfold is_u8; lia|constructor].
        * constructor; [unfold is_u8; lia|]. constructor; [unfold is_u8; lia|]. constructor; [unfold is_u8; lia|constructor].
      + unfold scan_data. apply Forall_map, Forall_forall. intros m _. apply pack_ok.
  Qed.

  Lemma file_bytes : Forall is_u8 (jpeg_file_with T t s color pl w h).
  Proof.
    apply (render_file_ok ps). pose proof (parts_ok T t s color pl w h Hw Hh Hst (apps_wf s color Hs)) as L.
    pose proof file_part_bytes as B. apply Forall_forall. intros p Hp. rewrite Forall_forall in B, L. split; [exact (L p Hp)|exact (B p Hp)].
  Qed.

  (** The scans of the file. *)
  Lemma app_segments_scans l : scans (map (fun '(nr, data) => Segment (224 + nr) data) l) = [].
  Proof. induction l as [|[nr d] l IH]; [reflexivity|exact IH]. Qed.
  Lemma scans_app a b : scans (a ++ b) = scans a ++ scans b.
  Proof. apply flat_map_app. Qed.
  Lemma scans_map {A} (g : A -> list Z) (k : A -> list (list Z)) l : scans (map (fun x => Scan (g x) (k x)) l) = map (fun x => (g x, k x)) l.
  Proof. induction l as [|x l IH]; [reflexivity|]. cbn [map scans flat_map app]. f_equal. exact IH. Qed.
  Lemma file_scans : scans ps = map (fun si => (scan_header f si, scan_data t f (s_restart s) cf si)) (scan_script s color).
  Proof.
    unfold ps, file_parts. rewrite !scans_app, app_segments_scans, scans_map. 
    assert (E1 : scans (if (3 <=? length (fr_comps f))%nat then [dht 0 1 (tb_dc t 1); dht 1 1 (tb_ac t 1)] else []) = [])
      by (destruct (3 <=? length (fr_comps f))%nat; reflexivity).
    assert (E2 : scans (dri (s_restart s)) = []) by (unfold dri; destruct (s_restart s =? 0); reflexivity).
    rewrite E1, E2. reflexivity.
  Qed.
  Lemma dri_app a b : dri_segments (a ++ b) = dri_segments a ++ dri_segments b.
  Proof. apply flat_map_app. Qed.
  Lemma file_dri : dri_segments ps = (if s_restart s =? 0 then [] else [u16_bytes (s_restart s)]).
  Proof.
    unfold ps, file_parts. rewrite !dri_app.
    assert (E0 : dri_segments (map (fun '(nr, data) => Segment (224 + nr) data) (apps_for s color)) = []).
    { pose proof (apps_wf s color Hs) as A. induction A as [|[nr d] l [Hn _] A IH]; [reflexivity|]. cbn [map dri_segments flat_map fst] in *.
      replace (224 + nr =? 221) with false by lia. exact IH. }
    assert (E1 : dri_segments (if (3 <=? length (fr_comps f))%nat then [dht 0 1 (tb_dc t 1); dht 1 1 (tb_ac t 1)] else []) = [])
      by (destruct (3 <=? length (fr_comps f))%nat; reflexivity).
    assert (E2 : dri_segments (map (fun si => Scan (scan_header f si) (scan_data t f (s_restart s) cf si)) (scan_script s color)) = []).
    { induction (scan_script s color) as [|si l IH]; [reflexivity|exact IH]. }
    rewrite E0, E1, E2, app_nil_r. cbn [app].
    assert (E3 : dri_segments [sof f; dqt s 0; dqt s 1; dht 0 0 (tb_dc t 0); dht 1 0 (tb_ac t 0)] = []).
    { unfold sof. destruct (fr_progressive f); reflexivity. }
    rewrite E3. unfold dri. destruct (s_restart s =? 0); reflexivity.
  Qed.
End Bytes.

Lemma mcus_length s color w h si : 0 <= w -> 0 <= h -> In si (scan_script s color) ->
  Z.of_nat (length (mcus_of (frame_for s color w h) si)) = mcu_count (frame_for s color w h) si.
Proof.
  intros Hw Hh Hin. set (f := frame_for s color w h). unfold mcus_of.
  set (sel := fun ci => match nth_error (fr_comps f) ci with Some c => [(ci, c)] | None => [] end).
  assert (G : forall l, (forall ci, In ci l -> (ci < length (fr_comps f))%nat) ->
    map fst (flat_map sel l) = l /\ Forall (fun ic => nth_error (fr_comps f) (fst ic) = Some (snd ic)) (flat_map sel l)).
  { induction l as [|ci l IH]; intros Hl; [split; constructor|]. cbn [flat_map]. unfold sel at 1 3.
    destruct (nth_error (fr_comps f) ci) as [c|] eqn:E.
    - destruct IH as [I1 I2]; [intros x Hx; apply Hl; now right|]. cbn [app map fst]. split; [now rewrite I1|].
      constructor; [exact E|exact I2].
    - apply nth_error_None in E. specialize (Hl ci (or_introl eq_refl)). lia. }
  destruct (G (si_comps si) (script_comps s color si Hin)) as [G1 G2].
  rewrite (scan_mcus_count f 0 _ G2 (hmax_pos f) (vmax_pos f)).
  - unfold mcu_count. cbn [si_comps]. rewrite G1. reflexivity.
  - exact Hw.
  - exact Hh.
  - apply Forall_forall. intros c Hc. destruct (comps_pos (s_sampling s) color c Hc). lia.
Qed.
