(* Raw3_proofs.v - raw images of PC formats: load, edit, save. *)
From Coq Require Import List.
From Verif Require Import Base Base_lemmas Chs_model Chs_spec Chs_proofs BitRing_model Mfm_model Types_model System34_model System34_spec
  BitStream_model BitStream_spec Stream_proofs S34_layout_proofs S34_format_proofs S34_meta_proofs S34_track_proofs
  DiskImage_model DiskImage_spec DiskImage_proofs DiskImage2_proofs TreeMap_proofs Format_model Format_spec Format_proofs Format2_proofs Format3_proofs
  SectorView_model SectorView_spec SectorView_proofs SectorView2_proofs Raw_model Raw_spec Raw_proofs Raw2_proofs.
Import ListNotations.

(* ---- what a loaded image is ---- *)
Definition saveable (f : StandardFormat) (d : DiskImage) (flat : list N) : Prop :=
  fmt_store f d flat /\ da_spt (di_analysis d) = Some (l_s (sf_layout f)) /\ di_geom d = sf_ch f.
Lemma fmt_sector_ct : forall f ch data t, fmt_track f ch data t -> bt_sector_ct t = N.to_nat (l_s (sf_layout f)).
Proof.
  intros f ch data t (std & ss & B & G & _ & _ & Hids & _). unfold bt_sector_ct. rewrite (g_meta _ _ _ _ _ G). cbn [meta_new md_items].
  assert (E : forall l, length (filter (fun i => is_sector_header (i_elem i)) l) = length (find_sector_ids l)).
  { induction l as [|[e a b c d] l IH]; [reflexivity|]. unfold find_sector_ids in *. cbn [filter flat_map i_elem].
    destruct e; cbn [is_sector_header length app]; auto. }
  rewrite E, items_ids, Hids. apply format_ids_length.
Qed.
Lemma analyze_rest : forall d d', di_analyze d = Ok d' -> di_pool d' = di_pool d /\ di_map0 d' = di_map0 d /\ di_map1 d' = di_map1 d /\ di_geom d' = di_geom d.
Proof.
  intros d d' E. unfold di_analyze in E. destruct (ofold _ _ _) as [a|e|] in E; cbn [obind] in E; try discriminate. injection E as <-. auto.
Qed.
Lemma cylinders : forall f, is_pc f -> lc f = 40%N \/ lc f = 80%N.
Proof. intros f [A B]. destruct f; try congruence; vm_compute; auto. Qed.
Definition boot_field (sector : list N) : option BootSector := match boot_new sector with Ok b => Some b | _ => None end.
Lemma names_boot : forall s, names_format s = match boot_field s with Some b => boot_standard_format b | None => None end.
Proof. intros s. unfold names_format, boot_field. destruct (boot_new s); reflexivity. Qed.
(* the track at (c, 0), from the head's point of view *)
Lemma head0_tab : forall d F C H c, wf d (tab F C H) -> (c < C)%N -> head0 d c = Some (F 0%N c).
Proof.
  intros d F C H c Hwf Hc. unfold head0. rewrite (wf_shows _ _ Hwf) by lia. cbn [ch_c ch_h].
  pose proof (tab_nth (F 0%N) C c) as T. destruct (N.ltb_spec c C); [|lia]. cbn [side tab fst]. unfold tab. destruct (H <? 2)%N; exact T.
Qed.
Theorem load_pc : forall sha1 rnd f img, is_pc f -> N.of_nat (length img) = sf_disk_size f -> bytes_ok img = true ->
  (l_c (sf_layout f) = 80%N -> forall d, raw_load_image rnd di_default img = Ok d -> some_pair_told_apart sha1 d) ->
  exists d, raw_load sha1 rnd img = Ok (d, boot_field (firstn 512 img)) /\ saveable f d img /\ clean_analysis f d.
Proof.
  intros sha1 rnd f img Hf Hlen Hb Hpair. destruct (load_bitstream rnd f img Hf Hlen Hb) as (d & F & E & G & W & HF).
  destruct (layout_facts f Hf) as (_ & _ & _ & Hc & Hh & Hs & _). destruct (pc_layout f Hf) as (_ & _ & _ & D & _).
  assert (HT : forall h c, (h < lh f)%N -> (c < lc f)%N -> holds_track f (mkCh c h) (fun s => sector_at img (sector_no f c h s)) (F h c)).
  { intros h c A B. destruct (HF h c A B) as (b & Eb & Hi). exists b. split; [exact Eb|apply ibm_fmt, Hi]. }
  assert (N : normalize (track_hash sha1 rnd) d = Ok d).
  { apply (normalize_keep _ d _ W).
    - intros t Ht. apply (or_introl (B := In t (snd (tab F (lc f) (lh f))))) in Ht. apply side_in in Ht as (h & c & A & B & ->); [|apply lh_12].
      destruct (HT h c A B) as (b & -> & Hi). exists (bt_sector_ct b). split; [reflexivity|]. rewrite (fmt_sector_ct _ _ _ _ Hi). lia.
    - assert (L : length (fst (tab F (lc f) (lh f))) = N.to_nat (lc f)).
      { change (fst (tab F (lc f) (lh f))) with (side (tab F (lc f) (lh f)) 0). apply tab_side_length; [apply lh_12|exact Hh]. }
      destruct (cylinders f Hf) as [C|C]; [left; rewrite L, C; reflexivity|right]. split; [rewrite L, C; reflexivity|].
      destruct (Hpair C d E) as (k & a & b & Hk & H0 & H1 & Hne).
      rewrite (head0_tab d F _ _ _ W) in H0 by (rewrite C; lia). rewrite (head0_tab d F _ _ _ W) in H1 by (rewrite C; lia).
      injection H0 as H0. injection H1 as H1.
      exists (N.to_nat k), (TBit a), (TBit b). change (fst (tab F (lc f) (lh f))) with (side (tab F (lc f) (lh f)) 0).
      assert (X : forall c, (c < lc f)%N -> nth_error (side (tab F (lc f) (lh f)) 0) (N.to_nat c) = Some (F 0%N c)).
      { intros c A. rewrite side_tab by apply lh_12. assert (A' : (0 < lh f)%N) by exact Hh. rewrite (proj2 (N.ltb_lt _ _) A), (proj2 (N.ltb_lt _ _) A'). reflexivity. }
      split; [|split].
      + replace (2 * N.to_nat k) with (N.to_nat (2 * k)) by lia. rewrite X by (rewrite C; lia). congruence.
      + replace (2 * N.to_nat k + 1) with (N.to_nat (2 * k + 1)) by lia. rewrite X by (rewrite C; lia). congruence.
      + cbn [track_hash]. unfold bit_hash. apply Hne. intros P.
        destruct (HF 0%N (2 * k)%N Hh ltac:(rewrite C; lia)) as (x & Ex & Hx). destruct (HF 0%N (2 * k + 1)%N Hh ltac:(rewrite C; lia)) as (y & Ey & Hy).
        assert (x = a) by congruence. assert (y = b) by congruence. subst x y.
        refine (cells_differ f _ _ _ _ a b Hf Hx Hy _ _ _ _); cbn [ch_c]; [lia|lia|lia|].
        apply pack_inj; [|exact P].
        destruct Hx as (ss & B & Gx & _ & _ & Hidx & _). destruct Hy as (ss' & B' & Gy & _ & _ & Hidy & _).
        destruct (h_carries _ _ _ _ _ (g_holds _ _ _ _ _ Gx)) as [Lx _]. destruct (h_carries _ _ _ _ _ (g_holds _ _ _ _ _ Gy)) as [Ly _].
        apply (f_equal (@length N)) in P. unfold pack in P. rewrite !map_length, !seq_length, Lx, Ly in P. rewrite Lx, Ly.
        clear - P. replace (16 * length B + 7) with (7 + (2 * length B) * 8) in P by lia. replace (16 * length B' + 7) with (7 + (2 * length B') * 8) in P by lia.
        rewrite !Nat.div_add in P by lia. lia. }
  assert (Hna : forall t, In t (fst (tab F (lc f) (lh f))) \/ In t (snd (tab F (lc f) (lh f))) -> tk_analysis t <> Panic).
  { intros t Ht. apply side_in in Ht as (h & c & A & B & ->); [|apply lh_12]. destruct (HT h c A B) as (b & -> & Hi). cbn [tk_analysis].
    destruct (fmt_analysis f _ _ _ Hf Hi) as (a & -> & _). discriminate. }
  destruct (analyze_ok d _ W Hna) as (d' & Ea). destruct (analyze_rest _ _ Ea) as (P1 & P2 & P3 & P4).
  assert (W' : wf d' (tab F (lc f) (lh f))) by (eapply wf_ext; [..|exact W]; assumption).
  assert (Hst : fmt_store f d' img) by (split; [exact Hf|split; [exact Hlen|exists F; auto]]).
  assert (Hca : clean_analysis f d').
  { refine (fmt_disk_analysis f F d d' Hf W _ Ea). intros h c A B. destruct (HT h c A B) as (b & Eb & Hi). eauto. }
  exists d'. split; [|split; [split; [exact Hst|split; [apply Hca|congruence]]|exact Hca]].
  unfold raw_load. rewrite E. cbn [obind]. unfold post_load_process. rewrite N. cbn [obind]. rewrite Ea. cbn [obind].
  assert (Eb : read_boot_sector rnd d' = Ok (firstn 512 img)).
  { unfold read_boot_sector. pose proof (head0_tab d' F _ _ 0%N W' Hc) as H0. destruct (HT 0%N 0%N Hh Hc) as (b & Eb & Hi).
    unfold head0 in H0. destruct (di_track d' (mkCh 0 0)) as [o|e|] eqn:Et; try discriminate. subst o.
    destruct (head_track d' _ Et) as (ti & l & Em & Ep). rewrite Em. unfold oindex. rewrite Ep. cbn [obind]. rewrite Eb. cbn [tk_read_sector].
    destruct (fmt_read f (mkCh 0 0) _ b Hi (rnd_bit rnd) 1%N true ltac:(lia) None (or_introl eq_refl)) as (r & Er & _ & _ & _ & _ & Q). cbn [ch_c ch_h] in Er. unfold sector_query in Er.
    rewrite Er. cbn [obind]. rewrite Q. do 2 f_equal. }
  rewrite Eb. unfold boot_field. unfold boot_new. destruct (_ <? 512); reflexivity.
Qed.

(* ---- saving ---- *)
Lemma chs_back : forall f, is_pc f -> sf_of_chs (mkChs (lc f) (lh f) (l_s (sf_layout f))) = Some f /\ normalized_track_ct (lc f) = Some (lc f) /\
  (l_s (sf_layout f) < 256)%N /\ ch_h (sf_ch f) = lh f.
Proof. intros f [A B]. destruct f; try congruence; vm_compute; repeat split; reflexivity. Qed.
Lemma consistency : forall f d flat, saveable f d flat -> forall boot trust,
  (match boot with Some b => boot_standard_format b | None => None end = None \/ match boot with Some b => boot_standard_format b | None => None end = Some f) ->
  closest_format d boot trust = Some f.
Proof.
  intros f d flat ((Hf & Hlen & F & W & _) & Hspt & Hg) boot trust Hb. unfold closest_format.
  assert (L : N.of_nat (length (di_map0 d)) = lc f).
  { destruct W as [_ [S0 _]]. rewrite (map_some_len _ _ _ S0). change (fst (tab F (lc f) (lh f))) with (side (tab F (lc f) (lh f)) 0).
    rewrite tab_side_length; [lia|apply lh_12|]. destruct (layout_facts f Hf) as (_ & _ & _ & _ & Hh & _). exact Hh. }
  destruct (chs_back f Hf) as (E1 & E2 & E3 & E4). rewrite Hspt, L, E2, Hg, E4. unfold as_u8. rewrite N.mod_small by exact E3. rewrite E1.
  assert (Ee : sf_eqb f f = true) by apply N.eqb_refl.
  destruct Hb as [-> | ->]; cbn [is_some orb osf_eqb andb negb]; [|rewrite Ee; reflexivity]. rewrite andb_false_r. reflexivity.
Qed.
Lemma chunks : forall (l : list N) n k, length l = n * k -> flat_map (fun i => slice l (i * k) k) (seq 0 n) = l.
Proof.
  intros l n k Hl. assert (G : forall m, m <= n -> flat_map (fun i => slice l (i * k) k) (seq 0 m) = firstn (m * k) l).
  { induction m as [|m IH]; intros Hm; [reflexivity|]. rewrite seq_S, flat_map_app, IH by lia. cbn [flat_map Nat.add]. rewrite app_nil_r.
    unfold slice. rewrite <- (firstn_skipn (m * k) l) at 3. rewrite firstn_app, firstn_length, Nat.min_l by nia. rewrite firstn_firstn, Nat.min_r by nia.
    f_equal. f_equal. nia. }
  rewrite G by lia. apply firstn_all2. lia.
Qed.
Lemma save_fold : forall (rd : DiskChsn -> outcome (list N)) (size : DiskChsn -> nat) ids out (data : DiskChsn -> list N),
  (forall id, In id ids -> rd id = Ok (data id) /\ length (data id) = size id) ->
  ofold (fun out id => match rd id with Ok b => Ok (out ++ fit_sector (size id) b) | Err _ => Err DataError | Panic => Panic end) ids out =
    Ok (out ++ flat_map data ids).
Proof.
  intros rd size ids. induction ids as [|i ids IH]; intros out data H; cbn [ofold flat_map]; [rewrite app_nil_r; reflexivity|].
  destruct (H i (or_introl eq_refl)) as [E L]. rewrite E. cbn [obind].
  assert (Ef : fit_sector (size i) (data i) = data i).
  { unfold fit_sector. rewrite <- L, Nat.ltb_irrefl, Nat.sub_diag. apply app_nil_r. }
  rewrite Ef, IH with (data := data) by (intros; apply H; right; assumption). rewrite app_assoc. reflexivity.
Qed.
(* the sectors of a layout in the order of the file *)
Lemma flat_sectors : forall f flat, is_pc f -> N.of_nat (length flat) = sf_disk_size f ->
  flat_map (fun x => sector_at flat (sector_no f (chs_c x) (chs_h x) (chs_s x))) (all_sectors (sf_layout f)) = flat.
Proof.
  intros f flat Hf Hlen. destruct (pc_layout f Hf) as (Hg & Ho & Hsz & D & _). destruct Hg as (Hc & Hh & Hs & _).
  assert (E : all_sectors (sf_layout f) = map (fun i => Chs_proofs.sector_at (sf_layout f) (N.of_nat i)) (seq 0 (N.to_nat (total f)))).
  { apply list_eq_nth_error. intros i. rewrite nth_error_all_sectors by lia. rewrite nth_error_map_seq. change (total_sectors (sf_layout f)) with (total f).
    destruct (N.ltb_spec (N.of_nat i) (total f)); destruct (Nat.ltb_spec i (N.to_nat (total f))); try lia; reflexivity. }
  rewrite E, flat_map_concat_map, map_map, <- flat_map_concat_map.
  transitivity (flat_map (fun i => slice flat (i * 512) 512) (seq 0 (N.to_nat (total f)))); [|apply chunks; lia].
  rewrite !flat_map_concat_map. f_equal. apply map_ext_in. intros i Hi. apply in_seq in Hi. unfold sector_at. f_equal.
  unfold Chs_proofs.sector_at. cbn [chs_c chs_h chs_s]. unfold sector_no. rewrite Ho.
  replace (1 + N.of_nat i mod l_s (sf_layout f) - 1)%N with (N.of_nat i mod l_s (sf_layout f))%N by lia.
  rewrite lba_recompose by lia. lia.
Qed.
Theorem save_pc : forall rnd f d flat boot, is_pc f -> holds d f flat -> closest_format d boot true = Some f -> raw_save rnd d boot = Ok flat.
Proof.
  intros rnd f d flat boot Hf (Hlen & Hr) Hc. unfold raw_save. rewrite Hc. destruct (pc_layout f Hf) as (Hg & Ho & Hsz & D & _).
  assert (Hs256 : (l_s (sf_layout f) - 1 + l_s_off (sf_layout f) <= 255)%N) by (rewrite Ho; destruct (chs_back f Hf) as (_ & _ & X & _); lia).
  rewrite sectors_of_all; [|exact Hg|exact Hs256|destruct (layout_facts f Hf) as (_ & _ & _ & X & _); exact X]. cbn [obind].
  assert (Hn : bytes_to_n (l_size (sf_layout f)) = 2%N) by (rewrite Hsz; reflexivity). rewrite Hn.
  set (ids := map (fun x => mkChsn x 2) (all_sectors (sf_layout f))).
  pose proof (save_fold (fun id => di_read_sector_basic rnd d (mkCh (chsn_c id) (chsn_h id)) (query_of_chsn id) None) (fun id => N.to_nat (n_to_bytes (chsn_n id)))
    ids [] (fun id => sector_at flat (sector_no f (chsn_c id) (chsn_h id) (chsn_s id)))) as H. cbn beta in H. rewrite H.
  - f_equal. cbn [app]. unfold ids. rewrite flat_map_concat_map, map_map, <- flat_map_concat_map. apply (flat_sectors f flat Hf Hlen).
  - intros id Hi. unfold ids in Hi. apply in_map_iff in Hi as (x & <- & Hx). apply in_all_sectors in Hx.
    assert (Hin : in_layout f (chs_c x) (chs_h x) (chs_s x)) by (apply in_on_disk; [exact Hf|destruct x; exact Hx]).
    split; [exact (Hr _ _ _ Hin rnd)|]. apply (sector_at_length flat _ (total f)); [congruence|]. apply sector_no_lt; auto.
Qed.
