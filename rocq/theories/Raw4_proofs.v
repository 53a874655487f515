(* Raw4_proofs.v - raw images of Amiga 880K disks. *)
From Coq Require Import List.
From Verif Require Import Base Base_lemmas Chs_model Chs_spec Chs_proofs BitRing_model Mfm_model Types_model MetaSector_model MetaSector_spec MetaSector_proofs
  BitStream_model DiskImage_model DiskImage_spec DiskImage_proofs DiskImage2_proofs TreeMap_proofs Format_model Format_spec Format_proofs Format2_proofs Format3_proofs
  SectorView_model SectorView_spec SectorView_proofs SectorView2_proofs Raw_model Raw_spec Raw_proofs Raw2_proofs Raw3_proofs.
Import ListNotations.

(* ---- sectors per track of an analysed image ---- *)
Lemma spt_of : forall d d' s k, wf d s -> 0 < k -> fst s <> [] ->
  (forall t, In t (fst s) \/ In t (snd s) -> exists ta, tk_analysis t = Ok ta /\ ta_sector_ct ta = k) -> di_analyze d = Ok d' ->
  da_spt (di_analysis d') = Some (N.of_nat k).
Proof.
  intros d d' s k Hwf Hk Hne Hd E. unfold di_analyze in E. destruct (ofold _ _ _) as [a|e|] eqn:Ea in E; cbn [obind] in E; [|discriminate|discriminate].
  pose proof (acc_fold_inv _ _ _ _ _ acc_init_inv Ea) as Hi.
  assert (HS : forall ta, analysed (di_pool d) (track_idx_iter d) ta -> ta_sector_ct ta = k).
  { intros ta (ti & t & Hti & Hp & Ht). apply iter_in in Hti. destruct Hwf as [_ [H0 H1]].
    assert (Hin : In t (fst s) \/ In t (snd s)).
    { apply in_app_or in Hti as [Hti|Hti]; apply In_nth_error in Hti as [j Hj].
      - left. pose proof (map_some_nth _ _ _ j H0) as M. rewrite Hj in M. cbv beta in M. rewrite Hp in M. symmetry in M. eapply nth_error_In; eauto.
      - right. pose proof (map_some_nth _ _ _ j H1) as M. rewrite Hj in M. cbv beta in M. rewrite Hp in M. symmetry in M. eapply nth_error_In; eauto. }
    destruct (Hd t Hin) as (ta' & E' & R). congruence. }
  assert (HE : exists ta, analysed (di_pool d) (track_idx_iter d) ta).
  { destruct s as [[|t0 l] s1]; [cbn in Hne; congruence|]. cbn [fst] in *. destruct (Hd t0 (or_introl (or_introl eq_refl))) as (ta & E' & _). destruct Hwf as [_ [H0 _]].
    pose proof (map_some_nth _ _ _ 0 H0) as M. change (nth_error (t0 :: l) 0) with (Some t0) in M. destruct (nth_error (di_map0 d) 0) as [ti|] eqn:Em; [|discriminate].
    exists ta, ti, t0. split; [apply iter_in; apply in_or_app; left; eapply nth_error_In; eauto|]. split; [exact M|exact E']. }
  destruct HE as [ta0 HE]. destruct Hi as (_ & _ & _ & _ & _ & Sp & Nd & Ct & _).
  assert (Hsp : forall n, In n (ac_spt a) -> n = k) by (intros n Hn; apply Sp in Hn as (_ & ta & [[]|X] & Y); rewrite <- Y; auto).
  assert (Hone : ac_spt a = [k]).
  { assert (Hin : In k (ac_spt a)) by (apply Sp; split; [lia|exists ta0; auto]).
    destruct (ac_spt a) as [|x [|y l]]; [destruct Hin| |].
    - f_equal. apply Hsp. left. reflexivity.
    - exfalso. inversion Nd as [|? ? Hx _]; subst. apply Hx. rewrite (Hsp x) by (left; auto). rewrite (Hsp y) by (right; left; auto). left. reflexivity. }
  assert (Hct : ac_ct a = k) by (destruct Ct as [X|[_ X]]; [apply Hsp, X|rewrite Hone in X; discriminate]).
  injection E as <-. cbn. rewrite Hone, Hct. reflexivity.
Qed.

(* ---- one track ---- *)
Definition adf_sector (ch : DiskCh) (pat : list N) (s : N) : MetaSector :=
  mkMS (mkChsn (mkChs (ch_c ch) (ch_h ch) s) 2) false false false false (slice pat (N.to_nat s * 512) 512) (mask_empty 512) (mask_empty 512).
Definition adf_meta (ch : DiskCh) (pat : list N) : MetaSectorTrack := mkMST ch (map (adf_sector ch pat) (Nseq 11)).
Lemma adf_clean : forall ch pat s, clean (adf_sector ch pat s).
Proof.
  intros ch pat s. assert (H : Forall (eq 0%N) (repeat 0%N 512)) by (apply Forall_forall; intros x Hx; apply repeat_spec in Hx; auto).
  split; [reflexivity|]. split; exact H.
Qed.
Lemma load_meta_loop : forall ch rest n, n * 512 <= length rest ->
  ofold (fun '(m, rest) s =>
      let! (b, rest) := read_exact 512 rest in
      let! m := mt_add_sector m (mkAddSector (raw_id (sf_layout AmigaFloppy880) ch s) b None None (mkAttr false false false false) false) in
      Ok (m, rest)) (Nseq (N.of_nat n)) (mkMST ch [], rest) = Ok (mkMST ch (map (adf_sector ch rest) (Nseq (N.of_nat n))), skipn (n * 512) rest).
Proof.
  intros ch rest. induction n as [|n IH]; intros Hl; [reflexivity|].
  rewrite Nseq_S, ofold_app, IH by lia. cbn [obind ofold].
  assert (E : read_exact 512 (skipn (n * 512) rest) = Ok (firstn 512 (skipn (n * 512) rest), skipn 512 (skipn (n * 512) rest))).
  { unfold read_exact. destruct (Nat.ltb_spec (length (skipn (n * 512) rest)) 512) as [H|H]; [rewrite skipn_length in H; lia|reflexivity]. }
  rewrite E. cbn [obind]. unfold mt_add_sector. cbn [as_alternate as_id as_data as_weak as_hole as_attr at_address_error at_data_error at_deleted at_no_dam mt_ch mt_sectors obind].
  rewrite skipn_skipn', map_app. cbn [map]. unfold adf_sector at 3. unfold slice. rewrite Nat2N.id.
  assert (L : length (firstn 512 (skipn (n * 512) rest)) = 512) by (rewrite firstn_length, skipn_length; lia). rewrite L.
  f_equal. f_equal. unfold raw_id. change (l_s_off (sf_layout AmigaFloppy880)) with 0%N. rewrite N.add_0_r. reflexivity.
Qed.
Definition meta_only (d : DiskImage) : Prop := di_multires d = false /\ (di_res d = [] \/ di_res d = [RMetaSector]).
Lemma load_meta_step : forall d s ch rest, wf d s -> meta_only d -> (ch_c ch < 80)%N -> (ch_h ch < 2)%N -> length (side s (ch_h ch)) = N.to_nat (ch_c ch) ->
  11 * 512 <= length rest -> bytes_ok rest = true ->
  exists d' t, load_meta_track AmigaFloppy880 (d, rest) ch = Ok (d', skipn (11 * 512) rest) /\ wf d' (append_to s (ch_h ch) t) /\ meta_only d' /\
    t = TMeta (adf_meta ch (firstn (11 * 512) rest)).
Proof.
  intros d s ch rest Hwf [Hm Hr] Hc Hh Hlen Hl Hb.
  assert (Em : map (adf_sector ch rest) (Nseq 11) = map (adf_sector ch (firstn (11 * 512) rest)) (Nseq 11)).
  { apply map_ext_in. intros x Hx. apply in_Nseq in Hx. unfold adf_sector. f_equal. apply slice_ext. intros i Hi. symmetry. apply nth_firstn_lt. lia. }
  exists (push_track (with_res d [RMetaSector]) (ch_h ch) (TMeta (adf_meta ch (firstn (11 * 512) rest)))), (TMeta (adf_meta ch (firstn (11 * 512) rest))).
  split; [|split; [apply push_wf; [apply with_res_wf; exact Hwf|exact Hh]|split; [split; [exact Hm|right; reflexivity]|reflexivity]]].
  unfold load_meta_track, add_track_metasector. destruct (N.leb_spec 2 (ch_h ch)); [lia|].
  assert (Hrej : res_rejects d RMetaSector = false) by (unfold res_rejects; rewrite Hm; destruct Hr as [-> | ->]; reflexivity). rewrite Hrej.
  assert (Hins : res_insert RMetaSector (di_res d) = [RMetaSector]) by (destruct Hr as [-> | ->]; reflexivity). rewrite Hins.
  cbn [obind]. unfold oindex. cbn [push_track di_pool with_res]. rewrite nth_error_app2 by lia. rewrite Nat.sub_diag. cbn [nth_error obind].
  change (N.to_nat (l_size (sf_layout AmigaFloppy880))) with 512. change (l_s (sf_layout AmigaFloppy880)) with (N.of_nat 11).
  rewrite load_meta_loop by exact Hl. cbn [obind]. unfold with_pool, push_track. cbn [di_pool di_multires di_res di_geom di_analysis di_map0 di_map1 with_res].
  change (N.of_nat 11) with 11%N. rewrite Em. f_equal. f_equal. f_equal.
  apply list_eq_nth_error. intros j. destruct (Nat.eq_dec j (length (di_pool d))) as [->|Hj].
  - rewrite nth_error_upd_same by (rewrite app_length; cbn; lia). rewrite nth_error_app2, Nat.sub_diag by lia. reflexivity.
  - rewrite nth_error_upd_other by auto. destruct (Nat.lt_ge_cases j (length (di_pool d))).
    + rewrite !nth_error_app1 by lia. reflexivity.
    + rewrite !nth_error_app2 by lia. destruct (j - length (di_pool d)) as [|[|x]] eqn:E; [lia|reflexivity|reflexivity].
Qed.
Definition adf_disk (img : list N) (h c : N) : DTrack := TMeta (adf_meta (mkCh c h) (adf_track img c h)).
Lemma tab_ext : forall F G C H, (H = 1 \/ H = 2)%N -> (forall h c, (h < H)%N -> (c < C)%N -> F h c = G h c) -> tab F C H = tab G C H.
Proof.
  intros F G C H HH E. unfold tab. f_equal.
  - apply map_ext_in. intros c Hc. apply in_Nseq in Hc. apply E; lia.
  - destruct (N.ltb_spec H 2); [reflexivity|]. apply map_ext_in. intros c Hc. apply in_Nseq in Hc. apply E; lia.
Qed.
Theorem load_adf : forall rnd img, N.of_nat (length img) = 901120%N -> bytes_ok img = true ->
  exists d, raw_load_image rnd di_default img = Ok d /\ di_geom d = mkCh 80 2 /\ wf d (tab (adf_disk img) 80 2).
Proof.
  intros rnd img Hlen Hb.
  destruct (load_cylinders 80 2 (11 * 512) (load_meta_track AmigaFloppy880) (fun ch pat t => t = TMeta (adf_meta ch pat)) meta_only (or_intror eq_refl)
     (fun d s ch rest A B C0 D0 E0 F0 G0 => load_meta_step d s ch rest A B C0 D0 E0 F0 G0)
     80 (set_resolution di_default RMetaSector) img) as (d & F & E & W & R & HQ).
  { lia. } { apply empty_wf; reflexivity. } { split; [reflexivity|right; reflexivity]. } { lia. } { exact Hb. }
  change (N.of_nat 80) with 80%N in *.
  exists (with_geom d (mkCh 80 2)). split; [|split; [reflexivity|]].
  - unfold raw_load_image. rewrite Hlen. change (sf_of_size 901120) with (Some AmigaFloppy880). cbn iota.
    change (negb _) with false at 1. cbn iota. change (negb _) with false at 1. cbn iota.
    unfold load_as_metasector. rewrite tracks_of_all by reflexivity. change (mkCh (l_c (sf_layout AmigaFloppy880)) (l_h (sf_layout AmigaFloppy880))) with (mkCh 80 2).
    rewrite E. reflexivity.
  - rewrite (tab_ext _ F) by (auto; intros h c A B; rewrite (HQ h c A B); unfold adf_disk, adf_track; do 3 f_equal; lia).
    eapply wf_ext; [..|exact W]; reflexivity.
Qed.

(* ---- reading, hashing and analysing the tracks ---- *)
Lemma adf_track_length : forall img c h, N.of_nat (length img) = 901120%N -> (c < 80)%N -> (h < 2)%N -> length (adf_track img c h) = 11 * 512.
Proof. intros img c h Hl Hc Hh. unfold adf_track. apply slice_length. lia. Qed.
Lemma adf_data : forall ch pat, length pat = 11 * 512 -> concat (map ms_data (map (adf_sector ch pat) (Nseq 11))) = pat.
Proof.
  intros ch pat Hl. rewrite map_map, <- flat_map_concat_map.
  transitivity (flat_map (fun i => slice pat (i * 512) 512) (seq 0 11)); [|apply chunks; exact Hl].
  change (Nseq 11) with (map N.of_nat (seq 0 11)). rewrite !flat_map_concat_map, map_map. f_equal.
Qed.
Lemma adf_hash : forall sha1 rnd ch pat, length pat = 11 * 512 -> track_hash sha1 rnd (TMeta (adf_meta ch pat)) = sha1 pat.
Proof.
  intros sha1 rnd ch pat Hl. cbn [track_hash]. unfold mt_read_all_sectors.
  assert (HF : Forall clean (mt_sectors (adf_meta ch pat))).
  { apply Forall_forall. intros x Hx. apply in_map_iff in Hx as (s & <- & _). apply adf_clean. }
  match goal with |- context [MetaSector_model.read_all_loop _ _ _ _ ?r] => destruct (read_all_loop_spec (rnd_sector rnd) 255 (mt_sectors (adf_meta ch pat)) 0 r HF) as (r' & E & B & _) end.
  rewrite E. cbn [obind rt_buf]. rewrite B. cbn [rt_buf rt_sectors_read app]. f_equal.
  rewrite firstn_all2 by (cbn [adf_meta mt_sectors]; rewrite map_length, Nseq_length; lia). apply adf_data, Hl.
Qed.
Lemma adf_analysis : forall ch pat, exists ta, mt_analysis (adf_meta ch pat) = Ok ta /\ ta_sector_ct ta = 11.
Proof.
  intros ch pat. unfold mt_analysis. rewrite analysis_loop_spec by (cbn [adf_meta mt_sectors]; rewrite map_length, Nseq_length; lia).
  cbn [obind]. eexists. split; [reflexivity|]. cbn [ta_sector_ct adf_meta mt_sectors]. rewrite map_length, Nseq_length. reflexivity.
Qed.
Lemma adf_ids : forall ch pat i, nth_error (ids_of (adf_meta ch pat)) i = if i <? 11 then Some (mkChsn (mkChs (ch_c ch) (ch_h ch) (N.of_nat i)) 2) else None.
Proof.
  intros ch pat i. unfold ids_of, adf_meta. cbn [mt_sectors]. rewrite map_map, nth_error_map. rewrite nth_error_Nseq. change (N.to_nat 11) with 11. destruct (i <? 11); reflexivity.
Qed.
Lemma adf_only : forall ch pat s, (s < 11)%N -> only_match (ids_of (adf_meta ch pat)) (sector_query (ch_c ch) (ch_h ch) s) (N.to_nat s).
Proof.
  intros ch pat s Hs. split.
  - exists (mkChsn (mkChs (ch_c ch) (ch_h ch) s) 2). split; [|unfold agrees; cbn; repeat split; congruence]. rewrite adf_ids. destruct (Nat.ltb_spec (N.to_nat s) 11); [|lia].
    rewrite N2Nat.id. reflexivity.
  - intros j id Hj Hn. rewrite adf_ids in Hn. destruct (Nat.ltb_spec j 11); [|discriminate]. injection Hn as <-. unfold agrees. cbn. intros (E & _). lia.
Qed.
Lemma only_first : forall ids q i, only_match ids q i -> first_match ids q i.
Proof. intros ids q i [A B]. split; [exact A|]. intros j id Hj. apply B. lia. Qed.
Lemma adf_nth : forall ch pat s, (s < 11)%N -> nth_error (mt_sectors (adf_meta ch pat)) (N.to_nat s) = Some (adf_sector ch pat s).
Proof.
  intros ch pat s Hs. cbn [adf_meta mt_sectors]. rewrite nth_error_map. rewrite nth_error_Nseq, N2Nat.id. change (N.to_nat 11) with 11. destruct (Nat.ltb_spec (N.to_nat s) 11); [reflexivity|lia].
Qed.
Lemma adf_read : forall rnd ch pat s n, (s < 11)%N -> forall dbg, exists r, tk_read_sector rnd (TMeta (adf_meta ch pat)) (sector_query (ch_c ch) (ch_h ch) s) n None DataOnly dbg = Ok r /\
  rs_not_found r = false /\ rs_address_crc_error r = false /\ rs_no_dam r = false /\ read_data_of r = Ok (slice pat (N.to_nat s * 512) 512).
Proof.
  intros rnd ch pat s n Hs dbg. cbn [tk_read_sector].
  destruct (first_match_positions _ _ _ (only_first _ _ _ (adf_only ch pat s Hs))) as (l & E).
  destruct (MetaSector_proofs.read_found (rnd_byte rnd) _ _ _ _ (only_first _ _ _ (adf_only ch pat s Hs)) (adf_nth ch pat s Hs) (adf_clean ch pat s)) as (r & Er & A & _ & B & _ & C & _).
  exists r. split; [exact Er|]. split; [exact A|]. split; [exact C|]. split; [|exact B].
  cbn [mt_read_sector] in Er. rewrite sm_idx_eq, E in Er. unfold oindex in Er. rewrite (adf_nth ch pat s Hs) in Er. cbn [obind] in Er.
  rewrite (clean_read _ _ (adf_clean ch pat s)) in Er. cbn [obind] in Er. injection Er as <-. reflexivity.
Qed.
Definition adf_no (c h s : N) : N := ((2 * c + h) * 11 + s)%N.
Lemma adf_at : forall img c h s, (s < 11)%N -> slice (adf_track img c h) (N.to_nat s * 512) 512 = sector_at img (adf_no c h s).
Proof. intros img c h s Hs. unfold adf_track, sector_at, adf_no. rewrite slice_slice by lia. f_equal. lia. Qed.
Lemma adf_side : forall img c h, (c < 80)%N -> (h < 2)%N -> nth_error (side (tab (adf_disk img) 80 2) h) (N.to_nat c) = Some (adf_disk img h c).
Proof. intros img c h Hc Hh. rewrite side_tab by auto. rewrite (proj2 (N.ltb_lt _ _) Hc), (proj2 (N.ltb_lt _ _) Hh). reflexivity. Qed.
Lemma adf_read_disk : forall rnd d img c h s, wf d (tab (adf_disk img) 80 2) -> (c < 80)%N -> (h < 2)%N -> (s < 11)%N ->
  di_read_sector_basic rnd d (mkCh c h) (sector_query c h s) None = Ok (sector_at img (adf_no c h s)).
Proof.
  intros rnd d img c h s W Hc Hh Hs. destruct (wf_seek d _ (mkCh c h) _ W ltac:(cbn; lia) (adf_side img c h Hc Hh)) as (ti & Es).
  unfold di_read_sector_basic. rewrite Es. cbn [obind]. destruct (adf_read rnd (mkCh c h) (adf_track img c h) s (q_n (sector_query c h s)) Hs false) as (r & Er & A & B & C & D).
  cbn [ch_c ch_h] in Er. unfold adf_disk. rewrite Er. cbn [obind]. rewrite A, B, C. cbn [orb]. rewrite D, adf_at by exact Hs. reflexivity.
Qed.

(* ---- saving ---- *)
Lemma flat_adf : forall flat, N.of_nat (length flat) = 901120%N ->
  flat_map (fun x => sector_at flat (adf_no (chs_c x) (chs_h x) (chs_s x))) (all_sectors (sf_layout AmigaFloppy880)) = flat.
Proof.
  intros flat Hlen. set (g := sf_layout AmigaFloppy880).
  assert (E : all_sectors g = map (fun i => Chs_proofs.sector_at g (N.of_nat i)) (seq 0 (80 * 22))).
  { apply list_eq_nth_error. intros i. rewrite nth_error_all_sectors by reflexivity. rewrite nth_error_map_seq. change (total_sectors g) with (N.of_nat (80 * 22)).
    destruct (N.ltb_spec (N.of_nat i) (N.of_nat (80 * 22))); destruct (Nat.ltb_spec i (80 * 22)); try lia; reflexivity. }
  rewrite E, flat_map_concat_map, map_map, <- flat_map_concat_map.
  transitivity (flat_map (fun i => slice flat (i * 512) 512) (seq 0 (80 * 22))); [|apply chunks; lia].
  rewrite !flat_map_concat_map. apply (f_equal (@concat N)). apply map_ext_in. intros i Hi. apply in_seq in Hi. unfold sector_at. apply (f_equal (fun o => slice flat o 512)).
  unfold Chs_proofs.sector_at. cbn [chs_c chs_h chs_s]. unfold adf_no. change (l_h g) with 2%N. change (l_s g) with 11%N. change (l_s_off g) with 0%N.
  pose proof (lba_recompose (N.of_nat i) 2 11 ltac:(lia) ltac:(lia)) as L. lia.
Qed.
Theorem save_adf : forall rnd d flat boot, N.of_nat (length flat) = 901120%N -> wf d (tab (adf_disk flat) 80 2) -> closest_format d boot true = Some AmigaFloppy880 ->
  raw_save rnd d boot = Ok flat.
Proof.
  intros rnd d flat boot Hlen W Hc. unfold raw_save. rewrite Hc.
  rewrite sectors_of_all; [|vm_compute; repeat split; discriminate|vm_compute; discriminate|reflexivity]. cbn [obind].
  change (bytes_to_n (l_size (sf_layout AmigaFloppy880))) with 2%N.
  set (ids := map (fun x => mkChsn x 2) (all_sectors (sf_layout AmigaFloppy880))).
  pose proof (save_fold (fun id => di_read_sector_basic rnd d (mkCh (chsn_c id) (chsn_h id)) (query_of_chsn id) None) (fun id => N.to_nat (n_to_bytes (chsn_n id)))
    ids [] (fun id => sector_at flat (adf_no (chsn_c id) (chsn_h id) (chsn_s id)))) as H. cbn beta in H. rewrite H.
  - f_equal. cbn [app]. unfold ids. rewrite flat_map_concat_map, map_map, <- flat_map_concat_map. apply (flat_adf flat Hlen).
  - intros id Hi. unfold ids in Hi. apply in_map_iff in Hi as (x & <- & Hx). apply in_all_sectors in Hx. destruct x as [c h s].
    assert (Hin : (c < 80)%N /\ (h < 2)%N /\ (s < 11)%N).
    { destruct Hx as (A & B & C). cbn in A, B, C. repeat split; lia. }
    destruct Hin as (A & B & C). split; [exact (adf_read_disk rnd d flat c h s W A B C)|].
    apply (sector_at_length flat _ 1760); [exact Hlen|]. unfold adf_no, chsn_c, chsn_h, chsn_s. cbn. lia.
Qed.
