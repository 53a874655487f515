(* Bs_api_proofs.v - read_sector after write_sector on an arbitrary bitstream track. *)
From Verif Require Import Base Base_lemmas Chs_model BitRing_model BitRing_proofs Mfm_model Mfm_spec Mfm_proofs Codec_lemmas
  Crc_model Crc16_proofs Types_model System34_model System34_spec Stream_proofs S34_layout_proofs S34_format_proofs S34_scan_proofs S34_clock_proofs
  S34_meta_proofs BitStream_model S34_track_proofs S34_ops_proofs S34_write_proofs TreeMap_proofs MetaSector_proofs MetaSector_spec BitStream_spec
  Bs_general_proofs Bs_history_proofs Bs_write_proofs.
From Coq Require Import Lia.

Definition written_read (c : DiskChsn) (wd lastf : bool) (mark d : list N) : ReadSectorResult :=
  mkRead (Some c) false false wd false None false
    (Some (mkIntegrity (crc_ibm_3740 ((if wd then [0xA1; 0xA1; 0xA1; 0xFE] else [0xA1; 0xA1; 0xA1; 0xFB])%N ++ d) None)
                       (crc_ibm_3740 (mark ++ d) None)))
    false false false lastf (4, 4 + length d) (mark ++ d ++ crc_of_mark wd d).

Lemma crc16_bytes_app l c : (c < 65536)%N -> crc16_bytes (l ++ be16 c) = Ok (c, crc_ibm_3740 l None).
Proof.
  intros Hc. unfold crc16_bytes. change (length (l ++ be16 c)) with (length (l ++ be16 c)).
  rewrite app_length. change (length (be16 c)) with 2.
  unfold oindex. rewrite !nth_error_app2 by lia.
  replace (length l + 2 - 2 - length l) with 0 by lia. replace (length l + 2 - 1 - length l) with 1 by lia.
  cbn [be16 nth_error obind]. rewrite firstn_app. replace (length l + 2 - 2) with (length l) by lia.
  rewrite Nat.sub_diag, firstn_all. cbn [firstn]. rewrite app_nil_r. rewrite from_be16_be16 by exact Hc. reflexivity.
Qed.

Lemma write_read_any rnd t q offset d scope wd t' r : mfm_wf (bt_data t) -> bytes_ok d = true ->
  bt_write_sector t q offset d scope wd false = Ok (t', r) ->
  wr_not_found r = false -> wr_no_dam r = false -> wr_address_crc_error r = false ->
  exists k i c de, nth_error (md_items (bt_meta t)) k = Some i /\ i_elem i = ElData c false de wd /\ length d = n_size c /\
    find_sector_element q (md_items (bt_meta t)) (off_of offset) = Found k c false de wd false (i_last i) /\
    forall ph mark, 16 * (length d + 6) <= mfm_len (bt_data t) ->
      in_phase (bt_data t) (i_start i) (length d + 6) ph -> no_weak (bt_data t) (i_start i + ph) (length d + 6) ->
      read_decoded_buf rnd (bt_data t) 4 (i_start i) = Ok mark ->
      bt_read_sector rnd t' q None offset DataOnly false = Ok (written_read c wd (i_last i) mark d).
Proof.
  intros W Hb. unfold bt_write_sector, scan_sector_element. destruct (bt_schema t) eqn:Es; cbn [negb obind]; [|discriminate].
  unfold find_sector_element. destruct (find_elem_loop _ _ _ _ _ _ _ _) as [k c ae de del dm b|wc bc wh] eqn:EF; cbn [obind].
  2: { intros E; injection E as _ <-. discriminate. }
  destruct (find_points_at _ _ _ _ _ _ _ _ _ _ _ _ _ _ _ EF) as (i & _ & Hn & Hb' & _ & D). rewrite Nat.sub_0_r in Hn.
  destruct dm; [intros E; injection E as _ <-; discriminate|].
  destruct ae; cbn [andb negb]; [intros E; injection E as _ <-; discriminate|].
  destruct (Bool.eqb wd del) eqn:Ew; cbn [negb]; [|discriminate]. apply Bool.eqb_prop in Ew. subst del.
  destruct (Nat.eqb_spec (n_size c) (length d)) as [El|El]; cbn [negb]; [|discriminate].
  unfold oindex at 1. rewrite Hn. cbn [obind]. destruct D as [[Hi _]|(Hi & _ & _ & Hx)]; [|discriminate Hx].
  destruct (encode_element (bt_data t) i d) as [[[m' i'] n]| |] eqn:Ee; cbn [obind]; try discriminate.
  intros E _ _ _.
  assert (Et : t' = mkTrack (bt_ch t) m' (mkMeta (upd (md_items (bt_meta t)) k i') (md_ids (bt_meta t)) (md_valid_ids (bt_meta t))) true) by congruence.
  clear E. subst t' b.
  exists k, i, c, de. split; [exact Hn|]. split; [exact Hi|]. split; [lia|]. split; [reflexivity|].
  intros ph mark Hl Hp Hw Hm.
  destruct (write_element_decodes rnd (bt_data t) i c false de wd d ph mark W Hi Hl Hb Hp Hw Hm) as (m2 & n2 & E2 & _ & R2).
  assert (m2 = m') by congruence. assert (i' = set_elem i (ElData c false false wd)) by congruence. subst m2 i'.
  unfold bt_read_sector, scan_sector_element. cbn [bt_schema negb bt_meta md_items bt_data].
  unfold find_sector_element. pose proof (find_after_update _ _ _ _ _ _ _ _ _ _ _ _ _ _ i false EF) as HF.
  rewrite Nat.sub_0_r in HF. rewrite (HF Hn Hi). cbn [obind andb].
  unfold oindex. rewrite nth_error_upd_same by (apply nth_error_Some; congruence). cbn [obind].
  unfold decode_element. cbn [set_elem i_elem i_start elem_size elem_range fst snd].
  replace (n_size c + (4 + 2 + n_size c - (4 + 2 + n_size c - 2 - 4))) with (length d + 6) by lia.
  rewrite R2. cbn [obind].
  assert (Hcl : (crc_ibm_3740 ((if wd then [0xA1; 0xA1; 0xA1; 0xFE] else [0xA1; 0xA1; 0xA1; 0xFB])%N ++ d) None < 65536)%N).
  { apply crc_lt_none. rewrite bytes_ok_app, Hb. destruct wd; reflexivity. }
  unfold crc_of_mark. rewrite app_assoc. rewrite crc16_bytes_app by exact Hcl. cbn [obind].
  unfold written_read, crc_of_mark. rewrite <- app_assoc. rewrite <- El. do 3 f_equal.
Qed.
