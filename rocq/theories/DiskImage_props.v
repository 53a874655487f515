(* DiskImage_props.v - C24, C25, C26 (whole images), C44, C45. *)
From Coq Require Import Sorting.Sorted.
From Verif Require Import Base Base_lemmas Chs_model Types_model Mfm_model System34_model MetaSector_model BitStream_model DiskImage_model DiskImage_spec DiskImage_proofs DiskImage2_proofs.

Definition rnd0 : Rnd := mkRnd (fun _ => 0%N) (fun _ => false) (fun _ _ => 0%N).
Definition fresh (d : DiskImage) : Prop := d = di_default \/ exists g spt, d = di_create g spt.
Lemma fresh_wf : forall d, fresh d -> wf d ([], []).
Proof. intros d [-> |(g & spt & ->)]; apply empty_wf; reflexivity. Qed.
Lemma fresh_lock : forall d, fresh d -> lock_inv d.
Proof. intros d [-> |(g & spt & ->)]; (split; [reflexivity|left; split; reflexivity]). Qed.

(* ---- C24 ----
   After any history of calls on a new image, no track of the map is dangling or shared, and track() shows
   exactly the tracks that the specification of the calls predicts, head by head and cylinder by cylinder. *)
Theorem C24_histories : forall rnd d0 ops d oks, fresh d0 -> calls rnd ops d0 = Some (d, oks) ->
  maps_valid d /\ exists s, effects rnd ([], []) ops oks s /\ shows d s.
Proof.
  intros rnd d0 ops d oks Hf H. destruct (calls_wf _ _ _ _ _ _ (fresh_wf _ Hf) H) as (s & Hwf & He).
  split; [apply Hwf|]. exists s. split; [exact He|apply wf_shows, Hwf].
Qed.
(* Iteration visits each mapped track exactly once, by cylinder and then head. *)
Theorem C24_iteration : forall rnd d0 ops d oks, fresh d0 -> calls rnd ops d0 = Some (d, oks) ->
  exists s ps, shows d s /\ all_positions s ps /\
    map Some (track_iter d) = map (fun p => nth_error (side s (N.of_nat (snd p))) (fst p)) ps.
Proof.
  intros rnd d0 ops d oks Hf H. destruct (calls_wf _ _ _ _ _ _ (fresh_wf _ Hf) H) as (s & Hwf & _).
  exists s, (positions (length (fst s)) (length (snd s))). split; [apply wf_shows, Hwf|]. split.
  - split; [apply positions_sorted|]. intros c h. rewrite positions_in. split.
    + intros [[-> Hc]|[-> Hc]]; (split; [lia|]); exact Hc.
    + intros [Hh Hc]. assert (E : h = 0 \/ h = 1) by lia. destruct E as [-> | ->]; [left|right]; split; auto.
  - apply track_iter_positions, Hwf.
Qed.
(* Reads and writes address exactly the track shown at the physical cylinder and head. *)
Lemma seek_shows : forall d s ch, maps_valid d -> shows d s ->
  match nth_error (side s (ch_h ch)) (N.to_nat (ch_c ch)) with
  | Some t => exists ti, seek_track d ch = Ok (ti, t)
  | None => seek_track d ch = Err SeekError
  end.
Proof.
  intros d s ch [Hnd Hr] Hs. unfold seek_track. destruct (1 <? ch_h ch)%N eqn:Eh.
  - apply N.ltb_lt in Eh. assert (E : side s (ch_h ch) = []).
    { destruct (ch_h ch) as [|p]; [lia|]. destruct p; try reflexivity. lia. }
    rewrite E. destruct (N.to_nat (ch_c ch)); reflexivity.
  - apply N.ltb_ge in Eh. assert (Hlt : (ch_h ch < 2)%N) by lia. specialize (Hs (ch_c ch) (ch_h ch) Hlt).
    unfold di_track in Hs. cbn [ch_c ch_h] in Hs.
    assert (Hm : exists m, head_map d (ch_h ch) = Ok m /\ forall ti, In ti m -> ti < length (di_pool d)).
    { assert (E : ch_h ch = 0%N \/ ch_h ch = 1%N) by lia. destruct E as [E|E]; rewrite E; eexists; (split; [reflexivity|]); intros; apply Hr, in_or_app; auto. }
    destruct Hm as (m & Em & Hm). rewrite Em in *. cbn [obind] in *. injection Hs as Hs.
    destruct (length m <=? N.to_nat (ch_c ch)) eqn:El.
    + apply Nat.leb_le in El. apply nth_error_None in El. rewrite El in Hs. rewrite <- Hs. reflexivity.
    + apply Nat.leb_gt in El. unfold oindex. destruct (nth_error m (N.to_nat (ch_c ch))) as [ti|] eqn:Ei; [|apply nth_error_None in Ei; lia].
      cbn [obind]. destruct (nth_error (di_pool d) ti) as [t|] eqn:Et.
      * rewrite <- Hs. exists ti. reflexivity.
      * apply nth_error_None in Et. apply nth_error_In in Ei. apply Hm in Ei. lia.
Qed.
Theorem C24_sector_access : forall d s ch rnd q n off scope dbg, maps_valid d -> shows d s ->
  di_read_sector rnd d ch q n off scope dbg =
    match nth_error (side s (ch_h ch)) (N.to_nat (ch_c ch)) with
    | Some t => tk_read_sector rnd t q n off scope dbg
    | None => Err SeekError
    end /\
  forall data del, match nth_error (side s (ch_h ch)) (N.to_nat (ch_c ch)) with
    | Some t => omap snd (di_write_sector d ch q off data scope del dbg) = omap snd (tk_write_sector t q off data scope del dbg)
    | None => di_write_sector d ch q off data scope del dbg = Err SeekError
    end.
Proof.
  intros d s ch rnd q n off scope dbg Hv Hs. pose proof (seek_shows d s ch Hv Hs) as H.
  unfold di_read_sector, di_write_sector.
  destruct (nth_error (side s (ch_h ch)) (N.to_nat (ch_c ch))) as [t|].
  - destruct H as (ti & ->). split; [reflexivity|]. intros data del. cbn [obind].
    destruct (tk_write_sector t q off data scope del dbg) as [[t' w]|e|]; reflexivity.
  - rewrite H. split; [reflexivity|]. intros; reflexivity.
Qed.
(* track() itself does not check the head. *)
Theorem C24_track_head_panics : forall d c h, (2 <= h)%N -> di_track d (mkCh c h) = Panic.
Proof. intros d c h H. unfold di_track. cbn [ch_h]. destruct h as [|p]; [lia|]. destruct p; try reflexivity. lia. Qed.
(* A history with both heads, a failed call, an edit and a removal. *)
Definition ex_ms (s : N) : MetaSector := mkMS (mkChsn (mkChs 0 0 s) 2) false false false false [] (mask_empty 0) (mask_empty 0).
Definition ex_ops : list Op :=
  [OpAddMeta (mkCh 0 0); OpAddMeta (mkCh 0 1); OpAddMeta (mkCh 1 0); OpAddMeta (mkCh 0 2); OpAddMeta (mkCh 2 0);
   OpEdit (mkCh 1 0) (TMeta (mkMST (mkCh 1 0) [ex_ms 1])); OpEdit (mkCh 2 0) (TMeta (mkMST (mkCh 2 0) [ex_ms 7]));
   OpRemoveEmpty; OpRemap].
Example C24_histories_ex : exists d, calls rnd0 ex_ops di_default = Some (d, [true; true; true; false; true; true; true; true; true]) /\
  di_track d (mkCh 1 0) = Ok (Some (TMeta (mkMST (mkCh 1 0) [ex_ms 7]))) /\ di_track d (mkCh 0 1) = Ok None /\
  track_iter d = [TMeta (mkMST (mkCh 0 0) [ex_ms 1]); TMeta (mkMST (mkCh 1 0) [ex_ms 7])].
Proof. eexists. split; [vm_compute; reflexivity|]. repeat split. Qed.

(* ---- C25 ----
   As long as multi-resolution support is not switched on and the resolution is not overridden, all tracks
   of the image have the same resolution; *)
Theorem C25_uniform : forall rnd d0 ops d oks, fresh d0 -> forallb locked_op ops = true -> calls rnd ops d0 = Some (d, oks) ->
  uniform d.
Proof.
  intros rnd d0 ops d oks Hf Ho H. apply lock_uniform. eapply calls_lock; eauto. apply fresh_lock, Hf.
Qed.
(* a call asking for another resolution than that of the tracks present fails and changes nothing; *)
Theorem C25_other_rejected : forall rnd d0 ops d oks op r t, fresh d0 -> forallb locked_op ops = true -> calls rnd ops d0 = Some (d, oks) ->
  In t (di_pool d) -> op_res op = Some r -> r <> tk_res t -> call rnd op d = Some (d, false).
Proof.
  intros rnd d0 ops d oks op r t Hf Ho H Ht Hr Hne.
  pose proof (calls_lock _ _ _ _ _ Ho (fresh_lock _ Hf) H) as Hl. pose proof (lock_rejects _ _ _ Hl Ht Hne) as Hj.
  destruct op; cbn in Hr; try discriminate; inversion Hr; subst; cbn [call]; unfold report.
  - unfold add_track_metasector. destruct (2 <=? _)%N; [reflexivity|]. rewrite Hj. reflexivity.
  - unfold add_track_bitstream. destruct (2 <=? _)%N; [reflexivity|]. rewrite Hj. reflexivity.
  - unfold add_track_fluxstream. destruct (2 <=? _)%N; [reflexivity|]. rewrite Hj. reflexivity.
  - unfold add_empty_track. destruct (2 <=? _)%N; [reflexivity|]. rewrite Hj. reflexivity.
Qed.
(* a track of the same resolution is accepted. *)
Theorem C25_same_accepted : forall rnd d0 ops d oks ch t, fresh d0 -> forallb locked_op ops = true -> calls rnd ops d0 = Some (d, oks) ->
  In t (di_pool d) -> tk_res t = RMetaSector -> (ch_h ch < 2)%N ->
  exists d', call rnd (OpAddMeta ch) d = Some (d', true) /\ In (TMeta (mkMST ch [])) (di_pool d').
Proof.
  intros rnd d0 ops d oks ch t Hf Ho H Ht Hr Hh.
  pose proof (calls_lock _ _ _ _ _ Ho (fresh_lock _ Hf) H) as Hl. pose proof (lock_accepts _ _ Hl Ht) as Hj. rewrite Hr in Hj.
  cbn [call]. unfold report, add_track_metasector. rewrite (proj2 (N.leb_gt _ _) Hh), Hj.
  eexists. split; [reflexivity|]. cbn. apply in_or_app. right. left. reflexivity.
Qed.
Example C25_ex : exists d, calls rnd0 [OpAddMeta (mkCh 0 0); OpAddMeta (mkCh 1 0)] di_default = Some (d, [true; true]) /\
  length (di_pool d) = 2 /\ call rnd0 (OpAddBit (mkCh 2 0) [] None (Some 16) false) d = Some (d, false).
Proof. eexists. split; [vm_compute; reflexivity|]. split; reflexivity. Qed.
(* A failed call does change the image: adding a bitstream track fails (mask of another length than the data),
   the image has no track at all, and yet it then refuses sector tracks. *)
Theorem C25_failed_add_refuted : exists op d, call rnd0 op di_default = Some (d, false) /\ di_pool d = [] /\ d <> di_default /\
  (exists d', call rnd0 (OpAddMeta (mkCh 0 0)) di_default = Some (d', true)) /\ call rnd0 (OpAddMeta (mkCh 0 0)) d = Some (d, false).
Proof.
  exists (OpAddBit (mkCh 0 0) [1%N] (Some [1; 2]%N) None false). eexists. split; [vm_compute; reflexivity|].
  split; [reflexivity|]. split; [discriminate|]. split; [eexists|]; vm_compute; reflexivity.
Qed.
(* In a multi-resolution image the resolution asked for is not the one of the track created. *)
Theorem C25_empty_track_resolution_refuted : exists d d', calls rnd0 [OpMultires true; OpAddMeta (mkCh 0 0)] di_default = Some (d, [true; true]) /\
  call rnd0 (OpAddEmpty (mkCh 0 1) (Some RBitStream) 16 None) d = Some (d', true) /\
  omap (option_map tk_res) (di_track d' (mkCh 0 1)) = Ok (Some RMetaSector).
Proof. eexists. eexists. split; [vm_compute; reflexivity|]. split; vm_compute; reflexivity. Qed.

(* ---- C26, whole images ----
   The capabilities after analyze(): each flag is set exactly when the analysis of some mapped track with
   sectors has it; a variable sector count exactly when two tracks with sectors have different counts; a
   variable sector size exactly when some track itself has no consistent size. *)
Definition on_disk (d : DiskImage) (ta : TrackAnalysis) : Prop :=
  exists t, In t (track_iter d) /\ tk_analysis t = Ok ta.
Definition flagged (d : DiskImage) (f : TrackAnalysis -> bool) : Prop := exists ta, on_disk d ta /\ 0 < ta_sector_ct ta /\ f ta = true.
Lemma on_disk_analysed : forall d ta, on_disk d ta <-> analysed (di_pool d) (track_idx_iter d) ta.
Proof.
  intros d ta. unfold on_disk, analysed, track_iter, track_idx_iter.
  assert (G : forall i t, In t (flat_map (fun m => match nth_error m i with Some ti => opt_list (nth_error (di_pool d) ti) | None => [] end) [di_map0 d; di_map1 d])
    <-> exists ti, In ti (opt_list (nth_error (di_map0 d) i) ++ opt_list (nth_error (di_map1 d) i)) /\ nth_error (di_pool d) ti = Some t).
  { intros i t. cbn [flat_map]. rewrite app_nil_r. rewrite in_app_iff.
    assert (Q : forall m : list nat, In t (match nth_error m i with Some ti => opt_list (nth_error (di_pool d) ti) | None => [] end) <->
      exists ti, In ti (opt_list (nth_error m i)) /\ nth_error (di_pool d) ti = Some t).
    { intros m. destruct (nth_error m i) as [ti|]; cbn.
      - destruct (nth_error (di_pool d) ti) as [u|] eqn:E; cbn.
        + split; [intros [->|[]]; exists ti; auto|intros (x & [<-|[]] & Hx); left; congruence].
        + split; [intros []|intros (x & [<-|[]] & Hx); congruence].
      - split; [intros []|intros (x & [] & _)]. }
    rewrite !Q. split.
    - intros [(x & A & B)|(x & A & B)]; exists x; (split; [apply in_or_app; auto|exact B]).
    - intros (x & A & B). apply in_app_or in A. destruct A; [left|right]; exists x; auto. }
  split.
  - intros (t & Hi & Ht). apply in_flat_map in Hi as (i & Hi & H). apply G in H as (ti & H & Hp).
    exists ti, t. split; [apply in_flat_map; exists i; auto|auto].
  - intros (ti & t & Hi & Hp & Ht). apply in_flat_map in Hi as (i & Hi & H).
    exists t. split; [apply in_flat_map; exists i; split; [exact Hi|apply G; exists ti; auto]|exact Ht].
Qed.
Theorem C26_image_capabilities : forall d d', di_analyze d = Ok d' ->
  let caps := da_caps (di_analysis d') in
  (cap_data_crc caps = true <-> flagged d ta_data_error) /\
  (cap_address_crc caps = true <-> flagged d ta_address_error) /\
  (cap_data_deleted caps = true <-> flagged d ta_deleted) /\
  (cap_no_dam caps = true <-> flagged d ta_no_dam) /\
  (cap_variable_spt caps = true <-> exists a b, on_disk d a /\ on_disk d b /\ 0 < ta_sector_ct a < ta_sector_ct b) /\
  (cap_variable_sspt caps = true <-> exists a, on_disk d a /\ ta_consistent_size a = None) /\
  (forall n, da_spt (di_analysis d') = Some n -> forall a, on_disk d a -> 0 < ta_sector_ct a -> n = N.of_nat (ta_sector_ct a)) /\
  (forall n, da_size (di_analysis d') = Some n -> n <> 0%N -> exists a, on_disk d a /\ ta_consistent_size a = Some n).
Proof.
  intros d d' H. unfold di_analyze in H.
  destruct (ofold (acc_step (di_pool d)) (track_idx_iter d) _) as [a|e|] eqn:Ea; cbn [obind] in H; try discriminate.
  pose proof (acc_fold_inv _ _ _ _ _ acc_init_inv Ea) as Hi.
  assert (Hx : acc_inv (on_disk d) a).
  { eapply acc_inv_ext; [|exact Hi]. intros ta. rewrite on_disk_analysed. split; [intros [[]|X]; exact X|auto]. }
  destruct Hx as (A & B & C & D & V & F & G & I & J & K). inversion H; subst d'; clear H. cbn -[Nat.ltb].
  assert (Hspt : (1 <? length (ac_spt a)) = true <-> exists x y, on_disk d x /\ on_disk d y /\ 0 < ta_sector_ct x < ta_sector_ct y).
  { split.
    - intros Hl. apply Nat.ltb_lt in Hl. destruct (nodup_two _ G Hl) as (x & y & Hx & Hy & Hne).
      apply F in Hx as (Px & tx & Sx & Ex). apply F in Hy as (Py & ty & Sy & Ey).
      destruct (Nat.lt_total x y) as [L|[L|L]]; [exists tx, ty|congruence|exists ty, tx]; subst; auto.
    - intros (x & y & Sx & Sy & Hlt). apply Nat.ltb_lt.
      assert (Hxi : In (ta_sector_ct x) (ac_spt a)) by (apply F; split; [lia|eauto]).
      assert (Hyi : In (ta_sector_ct y) (ac_spt a)) by (apply F; split; [lia|eauto]).
      destruct (ac_spt a) as [|u [|v l]]; cbn in *; [destruct Hxi| |lia].
      destruct Hxi as [Hx|[]], Hyi as [Hy|[]]. lia. }
  split; [exact A|split; [exact B|split; [exact C|split; [exact D|split; [|split; [|split]]]]]].
  - rewrite <- Hspt. destruct (1 <? length (ac_spt a)); split; intro; try reflexivity; discriminate.
  - rewrite <- V. destruct (ac_variable a); split; intro; try reflexivity; discriminate.
  - intros n Hn x Sx Px. destruct (1 <? length (ac_spt a)) eqn:El; [discriminate|]. inversion Hn; subst n. f_equal.
    apply Nat.ltb_ge in El. assert (Hxi : In (ta_sector_ct x) (ac_spt a)) by (apply F; split; [exact Px|eauto]).
    destruct I as [I|[_ I]]; [|rewrite I in Hxi; destruct Hxi].
    destruct (ac_spt a) as [|u [|v l]]; cbn in *; [destruct Hxi| |lia]. destruct Hxi as [Hx|[]], I as [Hy|[]]. congruence.
  - intros n Hn Hne. destruct (ac_variable a); [discriminate|]. inversion Hn; subst n. exact (J Hne).
Qed.
Definition ex_del : MetaSector := mkMS (mkChsn (mkChs 0 0 1) 2) false false true false [] (mask_empty 0) (mask_empty 0).
Definition ex_img (l : list (list MetaSector)) : DiskImage :=
  mkDI false [RMetaSector] (mkCh 0 0) da_default (map (fun s => TMeta (mkMST (mkCh 0 0) s)) l) (seq 0 (length l)) [].
Example C26_image_ex : exists d', di_analyze (ex_img [[ex_ms 1]; [ex_del; ex_ms 2]]) = Ok d' /\
  cap_data_deleted (da_caps (di_analysis d')) = true /\ cap_variable_spt (da_caps (di_analysis d')) = true.
Proof. eexists. split; [vm_compute; reflexivity|]. split; reflexivity. Qed.
(* Tracks with different sector sizes are reported as a uniform size: the size of the last track. *)
Definition ex_n (n : N) : MetaSector := mkMS (mkChsn (mkChs 0 0 1) n) false false false false [] (mask_empty 0) (mask_empty 0).
Theorem C26_mixed_sizes_refuted : exists d d', d = ex_img [[ex_n 1]; [ex_n 3]] /\ di_analyze d = Ok d' /\
  da_size (di_analysis d') = Some 3%N /\ cap_variable_sspt (da_caps (di_analysis d')) = false.
Proof. eexists. eexists. split; [reflexivity|]. split; [vm_compute; reflexivity|]. split; reflexivity. Qed.
(* 128-byte sectors are not counted at all. *)
Theorem C26_size_128_refuted : exists d d', d = ex_img [[ex_n 2]; [ex_n 0]] /\ di_analyze d = Ok d' /\
  da_size (di_analysis d') = Some 2%N /\ cap_variable_sspt (da_caps (di_analysis d')) = false.
Proof. eexists. eexists. split; [reflexivity|]. split; [vm_compute; reflexivity|]. split; reflexivity. Qed.
(* Weak bits are never reported. *)
Theorem C26_weak_refuted : forall d d', di_analyze d = Ok d' -> cap_weak (da_caps (di_analysis d')) = cap_weak (da_caps (di_analysis d)).
Proof.
  intros d d' H. unfold di_analyze in H. destruct (ofold _ _ _) in H; cbn [obind] in H; inversion H; subst; reflexivity.
Qed.

(* ---- C44: flux tracks ----
   The revolution presented by a flux track is one with the highest quality score, and the first such one,
   provided any score is positive; *)
Theorem C44_best_revolution : forall d ch bs d' ti, add_track_fluxstream d ch (Ok bs) = (d', Ok ti) ->
  (exists b, In b bs /\ (0 < bt_quality_score b)%Z) ->
  exists f b i, nth_error (di_pool d') ti = Some (TFlux f) /\ ft_ch f = ch /\ ft_bitstream f = Ok (Some b) /\
    nth_error bs i = Some b /\
    (forall j b', nth_error bs j = Some b' -> (bt_quality_score b' <= bt_quality_score b)%Z) /\
    (forall j b', j < i -> nth_error bs j = Some b' -> (bt_quality_score b' < bt_quality_score b)%Z).
Proof.
  intros d ch bs d' ti H (b0 & Hb0 & Hp). unfold add_track_fluxstream in H.
  destruct (2 <=? ch_h ch)%N; [discriminate|]. destruct (res_rejects d RFluxStream); [discriminate|].
  injection H as Hd' Hti. subst d' ti.
  assert (Hn : forall j b', nth_error (map Some bs) j = Some (Some b') <-> nth_error bs j = Some b').
  { intros j b'. rewrite nth_error_map. destruct (nth_error bs j); cbn; split; intro; congruence. }
  destruct (best_loop_spec (map Some bs) 0 0 0%Z _ eq_refl) as [[_ Hx]|(j & t & Hb & Hj & Hs & Hm & Hf)].
  - apply In_nth_error in Hb0 as (i & Hi). apply Hn in Hi. apply Hx in Hi. lia.
  - exists (mkFlux ch (length bs) (map Some bs) (best_loop 0 (map Some bs) 0 0%Z)), t, j.
    assert (Hj' : nth_error bs j = Some t) by (apply Hn; exact Hj).
    assert (Hl : j < length bs) by (apply nth_error_Some; congruence).
    split; [|split; [reflexivity|split; [|split; [exact Hj'|split]]]].
    + cbn. rewrite nth_error_app2 by (cbn; lia). cbn. rewrite Nat.sub_diag. cbn. unfold analyze_revolutions. cbn [ft_revs ft_ch ft_decoded].
      destruct (length bs) eqn:E; [lia|]. reflexivity.
    + unfold ft_bitstream. cbn [ft_best ft_revs ft_decoded]. rewrite Hb. cbn [Nat.add]. rewrite (proj2 (Nat.ltb_lt _ _) Hl).
      unfold oindex. rewrite Hj. reflexivity.
    + intros j' b' H'. eapply Hm. apply Hn. exact H'.
    + intros j' b' Hlt H'. eapply Hf; [exact Hlt|]. apply Hn. exact H'.
Qed.
(* and every operation on the flux track is that operation on the revolution. *)
Theorem C44_delegation : forall f b, ft_bitstream f = Ok (Some b) ->
  tk_sector_list (TFlux f) = Ok (bt_sector_list b) /\ tk_analysis (TFlux f) = bt_analysis b /\
  (forall rnd q n off sc dbg, tk_read_sector rnd (TFlux f) q n off sc dbg = bt_read_sector (rnd_bit rnd) b q n off sc dbg) /\
  (forall q off data sc del dbg t' w, tk_write_sector (TFlux f) q off data sc del dbg = Ok (t', w) ->
     exists b' f', bt_write_sector b q off data sc del dbg = Ok (b', w) /\ t' = TFlux f' /\ ft_bitstream f' = Ok (Some b')).
Proof.
  intros f b H. cbn [tk_sector_list tk_analysis tk_read_sector tk_write_sector]. unfold on_flux. rewrite H. cbn [obind].
  split; [reflexivity|split; [reflexivity|split; [reflexivity|]]].
  intros q off data sc del dbg t' w Hw. destruct (bt_write_sector b q off data sc del dbg) as [[b' w']|e|]; cbn [obind] in Hw; try discriminate.
  inversion Hw; subst. exists b', (ft_with_bitstream f b'). split; [reflexivity|]. split; [reflexivity|].
  unfold ft_bitstream, ft_with_bitstream in *. cbn [ft_best ft_revs ft_decoded]. clear Hw. destruct (ft_best f <? ft_revs f); [|discriminate].
  unfold oindex in *. destruct (nth_error (ft_decoded f) (ft_best f)) eqn:E; [|discriminate].
  rewrite nth_error_upd_same by (apply nth_error_Some; congruence). reflexivity.
Qed.
(* When no revolution has a positive score the first one is presented, even if another one scores higher. *)
Definition bad_item : Inst := mkInst (ElData (mkChsn (mkChs 0 0 1) 0) true true false) 0 0 None false.
Theorem C44_no_positive_score_refuted : forall m, let rev l := mkTrack (mkCh 0 0) m (mkMeta l [] []) true in
  exists b0 b1 d' f, b0 = rev [bad_item; bad_item] /\ b1 = rev [bad_item] /\ (bt_quality_score b0 < bt_quality_score b1)%Z /\
    add_track_fluxstream di_default (mkCh 0 0) (Ok [b0; b1]) = (d', Ok 0) /\ nth_error (di_pool d') 0 = Some (TFlux f) /\ ft_bitstream f = Ok (Some b0).
Proof. intros m rev. do 4 eexists. split; [reflexivity|]. split; [reflexivity|]. split; [reflexivity|]. split; [reflexivity|]. split; reflexivity. Qed.
Definition good_item : Inst := mkInst (ElData (mkChsn (mkChs 0 0 1) 0) false false false) 0 0 None false.
Example C44_ex : forall m, let rev l := mkTrack (mkCh 0 0) m (mkMeta l [] []) true in
  exists d' f, add_track_fluxstream di_default (mkCh 0 0) (Ok [rev [bad_item]; rev [good_item; bad_item]; rev [good_item; good_item]]) = (d', Ok 0) /\
   nth_error (di_pool d') 0 = Some (TFlux f) /\ ft_bitstream f = Ok (Some (rev [good_item; good_item])).
Proof. intros m rev. do 2 eexists. split; [reflexivity|]. split; reflexivity. Qed.

(* ---- C45: normalisation after loading ----
   Loading either keeps the tracks or keeps every second cylinder of each head, renumbered from 0; *)
Theorem C45_normalize_effect : forall rnd d0 ops d oks hash d', fresh d0 -> calls rnd ops d0 = Some (d, oks) -> normalize hash d = Ok d' ->
  d' = d \/ exists s, shows d s /\ shows d' (numbered_from 0 (evens (fst s)), numbered_from 0 (evens (snd s))) /\ maps_valid d'.
Proof.
  intros rnd d0 ops d oks hash d' Hf H Hn. destruct (calls_wf _ _ _ _ _ _ (fresh_wf _ Hf) H) as (s & Hwf & _).
  destruct (normalize_wf _ _ _ _ Hwf Hn) as [E|E]; [left; exact E|right]. exists s. split; [apply wf_shows, Hwf|].
  split; [apply wf_shows, E|apply E].
Qed.
(* for an image of 80 or 81 cylinders the tracks dropped from head 0 were empty or had the hash of the track
   before them. *)
Theorem C45_80_cylinders : forall rnd d0 ops d oks hash d', fresh d0 -> calls rnd ops d0 = Some (d, oks) -> normalize hash d = Ok d' ->
  d' <> d -> length (di_map0 d) = 80 \/ length (di_map0 d) = 81 ->
  forall c t0 t1, (c mod 2 = 0)%N -> di_track d (mkCh c 0) = Ok (Some t0) -> di_track d (mkCh (c + 1) 0) = Ok (Some t1) ->
  tk_sector_ct t1 = Ok 0 \/ hash t0 = hash t1.
Proof.
  intros rnd d0 ops d oks hash d' Hf H Hn Hne Hl c t0 t1 Hc H0 H1.
  destruct (calls_wf _ _ _ _ _ _ (fresh_wf _ Hf) H) as (s & Hwf & _). pose proof (wf_shows _ _ Hwf) as Hs.
  rewrite Hs in H0, H1 by reflexivity. injection H0 as H0. injection H1 as H1. cbn [side] in H0, H1.
  assert (Lf : length (di_map0 d) = length (fst s)) by (destruct Hwf as [_ [A _]]; exact (map_some_len _ _ _ A)).
  rewrite Lf in Hl. eapply (normalize_80 _ _ _ _ Hwf Hn Hne Hl (N.to_nat (c / 2))).
  - replace (2 * N.to_nat (c / 2)) with (N.to_nat c); [exact H0|]. dlia.
  - replace (2 * N.to_nat (c / 2) + 1) with (N.to_nat (c + 1)); [exact H1|]. dlia.
Qed.
(* An image of 60 cylinders loses the data of odd tracks that are neither empty nor duplicates ... *)
Definition ex_sec_tr (n : nat) : list MetaSector := [ex_ms (N.of_nat n)].
Definition lossy : DiskImage := ex_img (map (fun i => if (i mod 2 =? 1) && (i <? 40) then [] else ex_sec_tr i) (seq 0 60)).
Theorem C45_short_image_refuted : exists d', normalize (fun t => match t with TMeta t => match mt_sectors t with s :: _ => chsn_s (ms_id s) | [] => 0%N end | _ => 0%N end) lossy = Ok d' /\
  di_track lossy (mkCh 59 0) = Ok (Some (TMeta (mkMST (mkCh 0 0) (ex_sec_tr 59)))) /\
  length (di_map0 d') = 30 /\ forall t, In t (track_iter d') -> forall ch, t <> TMeta (mkMST ch (ex_sec_tr 59)).
Proof.
  eexists. split; [vm_compute; reflexivity|]. split; [vm_compute; reflexivity|]. split; [vm_compute; reflexivity|].
  intros t Ht ch E. subst t. vm_compute in Ht. repeat (destruct Ht as [Ht|Ht]; [discriminate Ht|]). exact Ht.
Qed.
(* ... and the tracks of head 1 are not examined at all. *)
Definition lossy2 : DiskImage :=
  mkDI false [RMetaSector] (mkCh 80 2) da_default
    (map (fun i => TMeta (mkMST (mkCh 0 0) (if (i mod 2 =? 1) && (i <? 80) then [] else ex_sec_tr i))) (seq 0 82)) (seq 0 80) [80; 81].
Theorem C45_head_1_refuted : exists d', normalize (fun _ => 0%N) lossy2 = Ok d' /\
  di_track lossy2 (mkCh 1 1) = Ok (Some (TMeta (mkMST (mkCh 0 0) (ex_sec_tr 81)))) /\
  length (di_map1 d') = 1 /\ forall t, In t (track_iter d') -> forall ch, t <> TMeta (mkMST ch (ex_sec_tr 81)).
Proof.
  eexists. split; [vm_compute; reflexivity|]. split; [vm_compute; reflexivity|]. split; [vm_compute; reflexivity|].
  intros t Ht ch E. subst t. vm_compute in Ht. repeat (destruct Ht as [Ht|Ht]; [discriminate Ht|]). exact Ht.
Qed.

Print Assumptions C24_histories.
Print Assumptions C24_iteration.
Print Assumptions C24_sector_access.
Print Assumptions C24_track_head_panics.
Print Assumptions C25_uniform.
Print Assumptions C25_other_rejected.
Print Assumptions C25_same_accepted.
Print Assumptions C25_failed_add_refuted.
Print Assumptions C25_empty_track_resolution_refuted.
Print Assumptions C26_image_capabilities.
Print Assumptions C26_mixed_sizes_refuted.
Print Assumptions C26_size_128_refuted.
Print Assumptions C26_weak_refuted.
Print Assumptions C44_best_revolution.
Print Assumptions C44_delegation.
Print Assumptions C44_no_positive_score_refuted.
Print Assumptions C45_normalize_effect.
Print Assumptions C45_80_cylinders.
Print Assumptions C45_short_image_refuted.
Print Assumptions C45_head_1_refuted.
