(* Chs_props.v - properties C01-C06: sector addressing. *)
From Verif Require Import Base Chs_model Chs_spec Chs_proofs.
Local Open Scope N_scope.

Definition pc360 : SectorLayout := mkLayout 40 2 9 1 512.
Example pc360_ok : layout_ok pc360 /\ l_s_off pc360 <= 1 /\ 0 < l_c pc360 /\ 0 < l_size pc360
  /\ l_s pc360 - 1 + l_s_off pc360 <= 255 /\ on_disk pc360 (mkChs 2 1 5).
Proof. unfold layout_ok, on_disk; cbn; lia. Qed.

(* C01: linear number -> address -> linear number, for every sector of every layout whose ids start
   at 0 or 1. *)
Theorem C01_lba_chs_lba : forall g lba,
  layout_ok g -> l_s_off g <= 1 -> lba < total_sectors g ->
  exists x, from_lba lba g = Ok (Some x) /\ on_disk g x /\ to_lba x g = lba.
Proof. exact lba_chs_lba. Qed.
Print Assumptions C01_lba_chs_lba.
Example C01_lba_chs_lba_ex : 49 < total_sectors pc360 /\ from_lba 49 pc360 = Ok (Some (mkChs 2 1 5)).
Proof. split; vm_compute; reflexivity. Qed.

Theorem C01_chs_lba_chs : forall g x,
  layout_ok g -> l_s_off g <= 1 -> on_disk g x ->
  from_lba (to_lba x g) g = Ok (Some x) /\ to_lba x g < total_sectors g.
Proof. intros g x H1 H2 H3; split; [exact (chs_lba_chs g x H1 H2 H3)|exact (to_lba_range g x H3)]. Qed.
Print Assumptions C01_chs_lba_chs.
Example C01_chs_lba_chs_ex : to_lba (mkChs 2 1 5) pc360 = 49.
Proof. reflexivity. Qed.

Theorem C01_out_of_range_rejected : forall g lba,
  layout_ok g -> total_sectors g <= lba -> from_lba lba g = Ok None.
Proof. exact from_lba_out. Qed.
Print Assumptions C01_out_of_range_rejected.
Example C01_out_of_range_ex : total_sectors pc360 <= 720.
Proof. vm_compute; discriminate. Qed.

(* The linear number is the position in the raw image order. *)
Theorem C01_lba_is_position : forall g x i,
  layout_ok g -> nth_error (all_sectors g) i = Some x -> to_lba x g = N.of_nat i.
Proof. exact all_sectors_lba. Qed.
Print Assumptions C01_lba_is_position.
Example C01_lba_is_position_ex : nth_error (all_sectors pc360) 49 = Some (mkChs 2 1 5).
Proof. vm_compute; reflexivity. Qed.

(* The restriction s_off <= 1 is needed: with first id 2 the last sector of each track is lost. *)
Theorem C01_s_off_2_refuted : exists g lba,
  layout_ok g /\ lba < total_sectors g /\ from_lba lba g = Ok None.
Proof. exists (mkLayout 40 2 9 2 512), 8. unfold layout_ok; cbn. repeat split; try lia. Qed.
Print Assumptions C01_s_off_2_refuted.

(* C02: the k first calls of the sector iterator return the sectors of the disk in raw image order,
   then None for ever; that list has each sector of the disk exactly once. *)
Theorem C02_chs_iter : forall g k,
  layout_ok g -> l_s g - 1 + l_s_off g <= 255 -> 0 < l_c g ->
  chs_iter k g = Ok (drained k (all_sectors g)).
Proof. exact chs_iter_drained. Qed.
Print Assumptions C02_chs_iter.
Example C02_chs_iter_ex : chs_iter 5 (mkLayout 1 2 2 1 512) =
  Ok [Some (mkChs 0 0 1); Some (mkChs 0 0 2); Some (mkChs 0 1 1); Some (mkChs 0 1 2); None].
Proof. reflexivity. Qed.

Theorem C02_chsn_iter : forall g k,
  layout_ok g -> l_s g - 1 + l_s_off g <= 255 -> 0 < l_c g ->
  chsn_iter k g =
    Ok (drained k (map (fun x => mkChsn x (bytes_to_n (l_size g))) (all_sectors g))).
Proof.
  intros g k H1 H2 H3. unfold chsn_iter, omap. rewrite chs_iter_drained by assumption. cbn [obind].
  f_equal. unfold drained. rewrite map_map. apply map_ext. intros i. symmetry. apply nth_error_map.
Qed.
Print Assumptions C02_chsn_iter.

Theorem C02_all_sectors_exact : forall g,
  NoDup (all_sectors g) /\ (forall x, In x (all_sectors g) <-> on_disk g x) /\
  N.of_nat (length (all_sectors g)) = total_sectors g.
Proof. intros g; exact (conj (all_sectors_NoDup g) (conj (in_all_sectors g) (all_sectors_length g))). Qed.
Print Assumptions C02_all_sectors_exact.

Theorem C02_next_sector : forall g x,
  layout_ok g -> l_s g - 1 + l_s_off g <= 255 -> on_disk g x ->
  next_sector x g = Ok (nth_error (all_sectors g) (S (N.to_nat (to_lba x g)))).
Proof. exact next_sector_on_disk. Qed.
Print Assumptions C02_next_sector.
Example C02_next_sector_ex : next_sector (mkChs 2 1 9) pc360 = Ok (Some (mkChs 3 0 1)).
Proof. reflexivity. Qed.

Theorem C02_offset_sectors : forall g x k,
  layout_ok g -> l_s g - 1 + l_s_off g <= 255 -> on_disk g x ->
  offset_sectors x k g = Ok (nth_error (all_sectors g) (N.to_nat (to_lba x g) + k)).
Proof. exact offset_sectors_on_disk. Qed.
Print Assumptions C02_offset_sectors.

(* Iterating a layout without cylinders is not empty in the code: the first sector is still yielded. *)
Theorem C02_empty_layout_refuted : exists g,
  l_c g = 0 /\ chs_iter 1 g = Ok [Some (mkChs 0 0 1)] /\ all_sectors g = [].
Proof. exists (mkLayout 0 2 9 1 512); repeat split; reflexivity. Qed.
Print Assumptions C02_empty_layout_refuted.

(* C03 *)
Theorem C03_track_iter : forall geom k,
  0 < ch_h geom -> 0 < ch_c geom -> ch_iter k geom = drained k (all_tracks geom).
Proof. exact ch_iter_drained. Qed.
Print Assumptions C03_track_iter.
Example C03_track_iter_ex : ch_iter 5 (mkCh 2 2) =
  [Some (mkCh 0 0); Some (mkCh 0 1); Some (mkCh 1 0); Some (mkCh 1 1); None].
Proof. reflexivity. Qed.

Theorem C03_all_tracks_exact : forall geom,
  NoDup (all_tracks geom) /\
  (forall x, In x (all_tracks geom) <-> ch_c x < ch_c geom /\ ch_h x < ch_h geom).
Proof. intros geom; exact (conj (all_tracks_NoDup geom) (in_all_tracks geom)). Qed.
Print Assumptions C03_all_tracks_exact.

Theorem C03_next_track : forall geom x i,
  0 < ch_h geom -> nth_error (all_tracks geom) i = Some x ->
  next_track x geom = nth_error (all_tracks geom) (S i).
Proof. exact next_track_index. Qed.
Print Assumptions C03_next_track.

Theorem C03_seek_next_track : forall geom x i,
  0 < ch_h geom -> nth_error (all_tracks geom) i = Some x ->
  seek_next_track x geom =
    match nth_error (all_tracks geom) (S i) with Some y => (y, true) | None => (x, false) end.
Proof. exact seek_next_track_spec. Qed.
Print Assumptions C03_seek_next_track.
Example C03_seek_ex : nth_error (all_tracks (mkCh 2 2)) 3 = Some (mkCh 1 1) /\
  seek_next_track (mkCh 1 1) (mkCh 2 2) = (mkCh 1 1, false).
Proof. split; reflexivity. Qed.

Theorem C03_next_track_unchecked : forall x heads,
  0 < heads -> ch_h x < heads -> ch_c x < 65535 ->
  exists y, next_track_unchecked x heads = Ok y /\ ch_h y < heads /\
            ch_c y * heads + ch_h y = ch_c x * heads + ch_h x + 1.
Proof. exact next_track_unchecked_spec. Qed.
Print Assumptions C03_next_track_unchecked.

(* C04 *)
Theorem C04_offset_to_sector : forall g off,
  layout_ok g -> l_s_off g <= 1 -> 0 < l_size g -> off < total_sectors g * l_size g ->
  exists x, from_raw_offset off g = Ok (Some (x, off mod l_size g)) /\ on_disk g x /\
    to_raw_offset x g = Some (off - off mod l_size g) /\ off mod l_size g < l_size g.
Proof. exact raw_offset_decompose. Qed.
Print Assumptions C04_offset_to_sector.
Example C04_offset_ex : from_raw_offset 5123 (mkLayout 40 2 9 1 1024) = Ok (Some (mkChs 0 0 6, 3)).
Proof. vm_compute; reflexivity. Qed.

Theorem C04_sector_to_offset : forall g x,
  layout_ok g -> l_s_off g <= 1 -> 0 < l_size g -> on_disk g x ->
  exists off, to_raw_offset x g = Some off /\ off = to_lba x g * l_size g /\
    forall b, b < l_size g -> from_raw_offset (off + b) g = Ok (Some (x, b)).
Proof. exact raw_offset_compose. Qed.
Print Assumptions C04_sector_to_offset.

Theorem C04_offset_past_end : forall g off,
  layout_ok g -> 0 < l_size g -> total_sectors g * l_size g <= off -> from_raw_offset off g = Ok None.
Proof. exact raw_offset_out. Qed.
Print Assumptions C04_offset_past_end.

(* The sector offset query accepts the non-existent sector id 0 of a 1-based layout and aliases it
   to sector 1. *)
Theorem C04_sector_zero_refuted : exists g x,
  layout_ok g /\ ~ on_disk g x /\ to_raw_offset x g = Some 0.
Proof. exists pc360, (mkChs 0 0 0). split; [exact (proj1 pc360_ok)|]. split; [unfold on_disk; cbn; lia|reflexivity]. Qed.
Print Assumptions C04_sector_zero_refuted.

(* C05 *)
Theorem C05_n_roundtrip : forall n, n <= 6 -> n_to_bytes n = 128 * 2 ^ n /\ bytes_to_n (n_to_bytes n) = n.
Proof. exact n_to_bytes_small. Qed.
Print Assumptions C05_n_roundtrip.
Theorem C05_capped : forall n, 6 <= n <= 56 -> n_to_bytes n = 8192.
Proof. exact n_to_bytes_mid. Qed.
Print Assumptions C05_capped.
Theorem C05_max : forall n, n_to_bytes n <= 8192.
Proof. exact n_to_bytes_max. Qed.
Print Assumptions C05_max.
(* The conversion from bytes: after shifting right by the result the size is at most 128, and by one
   less it is not - for an exact size 128*2^n that pins n. *)
Theorem C05_bytes_to_n : forall size, size < 2 ^ 64 ->
  size / 2 ^ bytes_to_n size <= 128 /\ (0 < bytes_to_n size -> 128 < size / 2 ^ (bytes_to_n size - 1)).
Proof. exact bytes_to_n_spec. Qed.
Print Assumptions C05_bytes_to_n.
Example C05_bytes_to_n_ex : bytes_to_n 1024 = 3 /\ bytes_to_n 1100 = 4.
Proof. split; reflexivity. Qed.
(* "largest n with 128*2^n <= size" is false of the code: 200 bytes gives n = 1 (256 bytes). *)
Theorem C05_largest_n_refuted : exists size, 128 < size /\ size < 128 * 2 ^ bytes_to_n size.
Proof. exists 200. vm_compute. split; reflexivity. Qed.
Print Assumptions C05_largest_n_refuted.
(* The size code is not capped at 8192 for every u8: n = 57 gives a zero-length sector. *)
Theorem C05_cap_all_n_refuted : exists n, n < 256 /\ 6 <= n /\ n_to_bytes n = 0.
Proof. exists 57. vm_compute. repeat split; congruence. Qed.
Print Assumptions C05_cap_all_n_refuted.

(* C06 *)
Theorem C06_query_matches : forall q id,
  query_matches q id = true <->
  q_s q = chsn_s id /\
  (forall c, q_c q = Some c -> c = chsn_c id) /\
  (forall h, q_h q = Some h -> h = chsn_h id) /\
  (forall n, q_n q = Some n -> n = chsn_n id).
Proof. exact query_matches_iff. Qed.
Print Assumptions C06_query_matches.
Example C06_query_ex : query_matches (mkQuery None (Some 1) 5 None) (mkChsn (mkChs 3 1 5) 2) = true
  /\ query_matches (mkQuery (Some 4) None 5 None) (mkChsn (mkChs 3 1 5) 2) = false.
Proof. split; reflexivity. Qed.

(* A query built from an id matches exactly that id; one built from a CHS ignores the size. *)
Theorem C06_query_of_chsn : forall i id, query_matches (query_of_chsn i) id = true <-> i = id.
Proof.
  intros [[c h s] n] [[c' h' s'] n']. rewrite query_matches_iff. cbn. split.
  - intros (A & B & C & D). rewrite A, (B _ eq_refl), (C _ eq_refl), (D _ eq_refl). reflexivity.
  - intros E; injection E as -> -> -> ->. repeat split; congruence.
Qed.
Print Assumptions C06_query_of_chsn.
Theorem C06_query_of_chs : forall i id, query_matches (query_of_chs i) id = true <-> i = chsn_chs id.
Proof.
  intros [c h s] [[c' h' s'] n']. rewrite query_matches_iff. cbn. split.
  - intros (A & B & C & D). rewrite A, (B _ eq_refl), (C _ eq_refl). reflexivity.
  - intros E; injection E as -> -> ->. repeat split; congruence.
Qed.
Print Assumptions C06_query_of_chs.

(* Layout guessing from a raw image size (sector_layout.rs derive_matches). *)
Theorem C41_derive_matches_sound : forall size z ls,
  derive_matches size z = Ok (Some ls) ->
  ls <> [] /\
  Forall (fun g => l_c g * l_h g * l_s g * l_size g = size /\ l_size g = z /\ 8 <= l_s g <= 18 /\
                   l_s_off g = 0 /\ (l_h g = 1 \/ l_h g = 2)) ls.
Proof. exact derive_matches_sound. Qed.
Print Assumptions C41_derive_matches_sound.
Theorem C41_derive_matches_complete : forall size z c h s,
  0 < z -> 8 <= s <= 18 -> (39 <= c < 45 \/ 79 <= c <= 85) -> c * h * s * z = size ->
  (h = 2 \/ (h = 1 /\ (N.odd c = true \/ 79 <= c))) ->
  exists ls, derive_matches size z = Ok (Some ls) /\ In (mkLayout c h s 0 z) ls.
Proof. exact derive_matches_complete. Qed.
Print Assumptions C41_derive_matches_complete.
Example C41_derive_ex : exists ls, derive_matches 409600 512 = Ok (Some ls) /\ In (mkLayout 80 1 10 0 512) ls.
Proof. eexists; split; [vm_compute; reflexivity|]. cbn [In]; tauto. Qed.
(* A 40-track single sided image is never recognised. *)
Theorem C41_single_sided_40_refuted : derive_matches (40 * 1 * 8 * 512) 512 = Ok None.
Proof. vm_compute; reflexivity. Qed.
Print Assumptions C41_single_sided_40_refuted.
