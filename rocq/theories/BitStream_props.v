(* BitStream_props.v - C18, C19, C20, C39, C40 and the bitstream parts of C26, C27, C43. *)
From Verif Require Import Base Base_lemmas Chs_model BitRing_model Mfm_model Mfm_spec Mfm_proofs Codec_lemmas
  Crc_model Crc_spec Crc16_proofs Crc_props Types_model System34_model System34_spec Stream_proofs S34_layout_proofs S34_format_proofs S34_scan_proofs
  S34_clock_proofs S34_meta_proofs BitStream_model S34_track_proofs S34_ops_proofs S34_write_proofs MetaSector_proofs MetaSector_spec BitStream_spec
  Bs_general_proofs Bs_history_proofs Bs_write_proofs Bs_more_proofs Bs_api_proofs Bs_loaded_proofs.
From Coq Require Import Lia.

(* ---- examples ---- *)
Definition xid (s : N) : DiskChsn := mkChsn (mkChs 5 1 s) 0.
(* A blank track of 8000 cells can be formatted with two 128-byte sectors. *)
Example format_ok_ex : exists t, format_ok t SIbm [xid 1; xid 2] [0xE5; 0x10]%N 10.
Proof.
  destruct (blank_new (fun _ => false) (mkCh 5 1) (100 * 80) ltac:(discriminate)) as (t & E & Hl & _).
  exists (bt_set_schema t). constructor.
  - exists (fun _ => false), (mkCh 5 1), [], (Some (100 * 80)), t. auto.
  - split; [discriminate|reflexivity].
  - repeat constructor.
  - unfold track_size. change (length (mfm_data (bt_data (bt_set_schema t)))) with (mfm_len (bt_data t)). rewrite Hl.
    split; [apply Nat.leb_le; vm_compute; reflexivity|]. rewrite layout_length. apply Nat.leb_le. vm_compute. reflexivity.
Qed.
Example first_from_ex : first_from (header_pos SIbm 10 [xid 1; xid 2]) [xid 1; xid 2] (mkQuery (Some 5%N) None 2 None) 0 1.
Proof.
  split.
  - exists (xid 2), (16 * 304). split; [reflexivity|]. split; [vm_compute; reflexivity|]. split; [lia|]. apply agrees_iff. reflexivity.
  - intros [|j] id p Hj Hi _ _; [|lia]. injection Hi as <-. intros H. apply agrees_iff in H. discriminate H.
Qed.
(* Tiny tracks: one sector of size code 57 (whose size is 0 bytes), normal, deleted, with a wrong header CRC,
   and a lone sector header. *)
Definition tiny_normal : list N := [170; 170; 68; 137; 68; 137; 68; 137; 85; 84; 170; 169; 42; 170; 170; 165; 37; 73; 17; 81; 74; 169; 42; 170; 68; 137; 68; 137; 68; 137; 85; 69; 84; 164; 73; 17; 18; 84]%N.
Definition tiny_deleted : list N := [170; 170; 68; 137; 68; 137; 68; 137; 85; 84; 170; 169; 42; 170; 170; 165; 37; 73; 17; 81; 74; 169; 42; 170; 68; 137; 68; 137; 68; 137; 85; 74; 81; 36; 85; 20; 146; 84]%N.
Definition tiny_badhdr : list N := [170; 170; 68; 137; 68; 137; 68; 137; 85; 84; 170; 169; 42; 170; 170; 165; 37; 73; 17; 81; 74; 170; 170; 170; 68; 137; 68; 137; 68; 137; 85; 69; 84; 164; 73; 17; 18; 84]%N.
Definition tiny_lone : list N := [170; 170; 68; 137; 68; 137; 68; 137; 85; 84; 170; 169; 42; 170; 170; 165; 37; 73; 17; 81; 74; 169; 18; 84]%N.
Definition no_rnd (_ : nat) : bool := false.
Definition tiny_load (d : list N) : outcome BitTrack := bt_new no_rnd (mkCh 1 0) d None None false.
Definition tiny_q : DiskChsnQuery := mkQuery (Some 1%N) (Some 0%N) 3 None.
Definition tiny_id : DiskChsn := mkChsn (mkChs 1 0 3) 57.

(* ---- C18 ---- *)
(* Formatted tracks: for every history of write requests, every read that selects sector k returns, without error
   flags and with a valid CRC, the data of the last request that selected sector k with the right size (and the
   normal mark), or the format's fill if there was none.  No request panics. *)
Theorem C18_read_last_write : forall rnd t std ids pat gap3 h,
  format_ok t std ids pat gap3 -> Forall (fun w => bytes_ok (b_data w) = true) h ->
  exists t0 t1, bt_format rnd t std ids pat gap3 = Ok t0 /\ run_requests t0 h = Ok t1 /\
    forall rnd' q offset debug k, first_from (header_pos std gap3 ids) ids q (off_of offset) k ->
      exists r id data, bt_read_sector rnd' t1 q None offset DataOnly debug = Ok r /\ nth_error ids k = Some id /\
        clean_read r id /\ read_data_of r = Ok data /\ length data = n_size id /\
        (forall w, last_req (takes_effect std gap3 ids k) h w -> data = b_data w) /\
        (Forall (fun w => ~ takes_effect std gap3 ids k w) h -> initial_data pat ids k = Some data).
Proof.
  intros rnd t std ids pat gap3 h Hf Hh. destruct (format_ok_good rnd _ _ _ _ _ Hf) as (t0 & E0 & G0 & S0 & _ & _).
  destruct (history_good std gap3 h _ _ _ G0 S0 Hh) as (t1 & ss1 & B1 & E1 & G1 & (_ & S1 & _) & Hids & Hlast).
  exists t0, t1. split; [exact E0|]. split; [exact E1|]. rewrite filled_ids in *.
  intros rnd' q offset debug k Hk. rewrite <- Hids in Hk. 
  destruct (lookup_first std gap3 ss1 q (off_of offset) k (g_ok _ _ _ _ _ G1) Hk) as (o & s & _ & Hlk).
  assert (Hs1 : bt_schema t1 = true) by congruence.
  pose proof (S34_ops_proofs.read_found _ _ _ _ _ G1 rnd' q offset k o s debug Hs1 Hlk) as Er.
  apply lookup_some in Hlk as (Hn & _). apply slot_sec in Hn.
  assert (Hid : nth_error ids k = Some (fs_id s)) by (rewrite <- Hids, nth_error_map, Hn; reflexivity).
  assert (Hf0 : exists s0, nth_error (filled pat 0 ids) k = Some s0).
  { destruct (nth_error (filled pat 0 ids) k) eqn:En; [eauto|]. apply nth_error_None in En.
    assert (L : length (filled pat 0 ids) = length ids) by (rewrite <- (map_length fs_id (filled pat 0 ids)), filled_ids; reflexivity).
    assert (k < length ids) by (apply nth_error_Some; congruence). lia. }
  destruct Hf0 as [s0 Hs0]. destruct (Hlast k s0 Hs0) as (s' & Hs' & HA & HB). assert (s' = s) by congruence. subst s'.
  eexists. exists (fs_id s), (fs_data s). split; [exact Er|]. split; [exact Hid|]. split; [|split; [|split; [|split]]].
  - unfold clean_read. cbn. repeat (split; [reflexivity|]). eexists. split; [reflexivity|]. apply N.eqb_refl.
  - unfold read_data_of. cbn [rs_range rs_buf]. rewrite data_field_split. rewrite !app_length. cbn [length].
    destruct (Nat.ltb_spec (4 + length (fs_data s)) 4); [lia|]. cbn [orb].
    match goal with |- context [?a <? ?b] => destruct (Nat.ltb_spec a b); [lia|] end.
    f_equal. replace (4 + length (fs_data s) - 4) with (length (fs_data s)) by lia.
    unfold slice. rewrite <- app_assoc. cbn [app skipn]. rewrite firstn_app, firstn_all, Nat.sub_diag. cbn [firstn]. apply app_nil_r.
  - pose proof (g_ok _ _ _ _ _ G1) as Hok. rewrite Forall_forall in Hok. apply (Hok s). eapply nth_error_In; eauto.
  - intros w Hw. apply HA. exact Hw.
  - intros Hw. unfold initial_data. rewrite Hs0, (HB Hw). reflexivity.
Qed.
(* Sectors that are not there: reads and writes report not_found and change nothing. *)
Theorem C18_absent : forall rnd t std ids pat gap3 h,
  format_ok t std ids pat gap3 -> Forall (fun w => bytes_ok (b_data w) = true) h ->
  exists t0 t1, bt_format rnd t std ids pat gap3 = Ok t0 /\ run_requests t0 h = Ok t1 /\
    forall rnd' q offset, none_from (header_pos std gap3 ids) ids q (off_of offset) ->
      (forall n scope debug, exists r, bt_read_sector rnd' t1 q n offset scope debug = Ok r /\ rs_not_found r = true /\ rs_buf r = []) /\
      (forall d scope wd debug, exists w, bt_write_sector t1 q offset d scope wd debug = Ok (t1, w) /\ wr_not_found w = true).
Proof.
  intros rnd t std ids pat gap3 h Hf Hh. destruct (format_ok_good rnd _ _ _ _ _ Hf) as (t0 & E0 & G0 & S0 & _ & _).
  destruct (history_good std gap3 h _ _ _ G0 S0 Hh) as (t1 & ss1 & B1 & E1 & G1 & (_ & S1 & _) & Hids & _).
  exists t0, t1. split; [exact E0|]. split; [exact E1|]. rewrite filled_ids in *.
  intros rnd' q offset Hn. rewrite <- Hids in Hn. assert (Hs1 : bt_schema t1 = true) by congruence.
  pose proof (proj2 (lookup_none_from std gap3 ss1 q (off_of offset) (g_ok _ _ _ _ _ G1)) Hn) as Hlk. split.
  - intros n scope debug. eexists. split; [exact (S34_ops_proofs.read_missing _ _ _ _ _ G1 rnd' q offset n scope debug Hs1 Hlk)|]. auto.
  - intros d scope wd debug. eexists. split; [exact (S34_write_proofs.write_missing _ _ _ _ _ G1 q offset d scope wd debug Hs1 Hlk)|]. auto.
Qed.
Example C18_absent_ex : none_from (header_pos SIbm 10 [xid 1; xid 2]) [xid 1; xid 2] (mkQuery (Some 5%N) None 3 None) 0.
Proof. intros [|[|j]] id p Hi _ _; [..|destruct j; discriminate Hi]; injection Hi as <-; intros H; apply agrees_iff in H; discriminate H. Qed.
(* Any track: a write changes at most the cells of the data and CRC fields of one data element of the right size and
   kind (plus one cell, for the phase). *)
Theorem C18_write_frame : forall rnd0 ch data ct t q offset d scope wd debug t' r,
  bt_new rnd0 ch data None ct false = Ok t -> mfm_len (bt_data t) <> 0 ->
  bt_write_sector t q offset d scope wd debug = Ok (t', r) ->
  mfm_len (bt_data t') = mfm_len (bt_data t) /\
  (mfm_data (bt_data t') = mfm_data (bt_data t) \/
   exists i c ae de, In i (md_items (bt_meta t)) /\ i_elem i = ElData c ae de wd /\ n_size c = length d /\
     forall j, (forall k, 64 <= k <= 16 * (6 + length d) -> (i_start i + k) mod mfm_len (bt_data t) <> j) ->
       nth j (mfm_data (bt_data t')) false = nth j (mfm_data (bt_data t)) false).
Proof.
  intros rnd0 ch data ct t q offset d scope wd debug t' r Ht Hl Hw.
  assert (W : mfm_wf (bt_data t)) by (apply formattable_wf; eapply new_formattable; eauto).
  destruct (write_frame_any _ _ _ _ _ _ _ _ _ W Hw) as [E [D|(i & c & ae & de & del & H1 & H2 & H3 & -> & H4)]]; split; auto.
  right. exists i, c, ae, de. auto.
Qed.
(* On a formatted track exactly the data and CRC fields change, and nothing else. *)
Theorem C18_write_frame_formatted : forall rnd t std ids pat gap3 q offset k d scope debug,
  format_ok t std ids pat gap3 -> bytes_ok d = true ->
  first_from (header_pos std gap3 ids) ids q (off_of offset) k ->
  forall id p, nth_error ids k = Some id -> nth_error (header_pos std gap3 ids) k = Some p -> length d = n_size id ->
  exists t0 t1 w, bt_format rnd t std ids pat gap3 = Ok t0 /\ bt_write_sector t0 q offset d scope false debug = Ok (t1, w) /\
    wr_not_found w = false /\ length (mfm_data (bt_data t1)) = length (mfm_data (bt_data t0)) /\
    let a := p + 16 * (26 + gap2_len std) in
    forall j, j < a \/ a + 16 * (length d + 2) <= j ->
      nth j (mfm_data (bt_data t1)) false = nth j (mfm_data (bt_data t0)) false.
Proof.
  intros rnd t std ids pat gap3 q offset k d scope debug Hf Hb Hk id p Hid Hp Hl.
  destruct (format_ok_good rnd _ _ _ _ _ Hf) as (t0 & E0 & G0 & S0 & _ & _). rewrite <- (filled_ids pat 0 ids) in Hk.
  destruct (lookup_first _ _ _ _ _ _ (g_ok _ _ _ _ _ G0) Hk) as (o & s & _ & Hlk).
  pose proof Hlk as Hlk2. apply lookup_some in Hlk2 as (Hn & _).
  pose proof (header_pos_ss std gap3 _ (g_ok _ _ _ _ _ G0)) as Hpos. rewrite filled_ids in Hpos. rewrite Hpos, nth_error_map, Hn in Hp.
  cbn [option_map fst] in Hp. injection Hp as <-. pose proof (slot_facts _ _ _ _ _ G0 _ _ _ Hn) as ((Hlen & _) & Hfm & Hb0 & _).
  apply slot_sec in Hn. assert (Eid : fs_id s = id).
  { pose proof (filled_ids pat 0 ids) as F. rewrite <- F, nth_error_map, Hn in Hid. cbn in Hid. congruence. }
  destruct (S34_write_proofs.write_found _ _ _ _ _ G0 q offset k o s d scope debug S0 Hlk) as (t1 & Ew & _ & Hc & _); [congruence|exact Hb|].
  exists t0, t1. eexists. split; [exact E0|]. split; [exact Ew|]. split; [reflexivity|]. rewrite Hc. split; [apply write_cells_length|].
  cbn zeta. intros j Hj. apply write_cells_outside.
  - pose proof (holds_len _ _ _ _ _ (g_holds _ _ _ _ _ G0)) as HL. rewrite HL. unfold dam_at in *. rewrite Hl, <- Eid, <- Hlen. clear - Hb0. unfold dam_at in Hb0. lia.
  - unfold idam_at, dam_at in *. clear - Hj. lia.
Qed.
(* Any loaded track: after a successful write of a normal sector whose data element contains no other address mark
   and is shorter than the track, reading the same query returns the data, no error and a valid CRC. *)
Theorem C18_loaded_write_read : forall rnd0 ch data ct t q offset d scope t' w,
  bt_new rnd0 ch data None ct false = Ok t -> bytes_ok d = true ->
  bt_write_sector t q offset d scope false false = Ok (t', w) ->
  wr_not_found w = false -> wr_no_dam w = false -> wr_address_crc_error w = false ->
  exists i c de, In i (md_items (bt_meta t)) /\ i_elem i = ElData c false de false /\ length d = n_size c /\
    (undisturbed t i (length d + 6) -> 16 * (length d + 6) <= mfm_len (bt_data t) ->
     forall rnd, exists r, bt_read_sector rnd t' q None offset DataOnly false = Ok r /\ clean_read r c /\ read_data_of r = Ok d).
Proof.
  intros rnd0 ch data ct t q offset d scope t' w Ht Hb Hw N1 N2 N3.
  destruct (loaded_write_read _ _ _ _ _ _ _ _ _ _ _ _ Ht Hb Hw N1 N2 N3) as (k & i & c & de & H1 & H2 & H3 & _ & H5).
  exists i, c, de. split; [eapply nth_error_In; eauto|]. split; [exact H2|]. split; [exact H3|]. intros U Hl rnd.
  eexists. split; [apply (H5 U Hl rnd)|]. split.
  - unfold clean_read, written_read. cbn. repeat (split; [reflexivity|]). eexists. split; [reflexivity|]. apply N.eqb_refl.
  - unfold read_data_of, written_read. cbn [rs_range rs_buf]. rewrite !app_length. change (length DAM_MARKER_BYTES) with 4. 
    destruct (Nat.ltb_spec (4 + length d) 4); [lia|]. cbn [orb].
    match goal with |- context [?a <? ?b] => destruct (Nat.ltb_spec a b); [lia|] end.
    f_equal. replace (4 + length d - 4) with (length d) by lia.
    unfold slice. cbn [app skipn DAM_MARKER_BYTES]. rewrite firstn_app, firstn_all, Nat.sub_diag. cbn [firstn]. apply app_nil_r.
Qed.
Example C18_loaded_ex : exists t t' w, tiny_load tiny_normal = Ok t /\
  bt_write_sector t tiny_q None [] DataOnly false false = Ok (t', w) /\ w = mkWrite false false false false false false /\
  16 * 6 <= mfm_len (bt_data t) /\ Forall (fun i => match i_elem i with ElData _ _ _ _ => undisturbed t i 6 | _ => True end) (md_items (bt_meta t)).
Proof.
  eexists. eexists. eexists. split; [vm_compute; reflexivity|]. split; [vm_compute; reflexivity|]. split; [reflexivity|].
  split; [vm_compute; lia|]. repeat constructor. intros j k Hj Ek Hlt. cbn in Hj.
  repeat (destruct Hj as [<-|Hj]; [cbn in *; try discriminate; lia|]). destruct Hj.
Qed.
(* Deleted sectors: the CRC is computed over the mark A1 A1 A1 FE instead of A1 A1 A1 F8, so the sector just written
   always has a wrong CRC. *)
Lemma deleted_crc_differs d : bytes_ok d = true ->
  crc_ibm_3740 ([0xA1; 0xA1; 0xA1; 0xFE]%N ++ d) None <> crc_ibm_3740 (DDAM_MARKER_BYTES ++ d) None.
Proof.
  intros Hb H. set (a := ([0xA1; 0xA1; 0xA1; 0xFE] ++ d)%N) in *.
  assert (Ha : bytes_ok a = true) by (unfold a; rewrite bytes_ok_app, Hb; reflexivity).
  destruct (C12_burst_detected a ((DDAM_MARKER_BYTES ++ d) ++ be16 (crc_ibm_3740 a None)) 24 Ha) as (rc & cc & E & Hne).
  - rewrite !bytes_ok_app, Hb. rewrite (be16_ok _ (crc_lt_none _ Ha)). reflexivity.
  - rewrite !app_length. reflexivity.
  - unfold a. intros E. discriminate E.
  - intros i Hi. unfold a, bits_of, DDAM_MARKER_BYTES in Hi. cbn [flat_map app] in Hi.
    destruct (Nat.lt_ge_cases i 24) as [H1|H1]; [exfalso; apply Hi; do 24 (destruct i as [|i]; [reflexivity|]); lia|].
    destruct (Nat.lt_ge_cases i 40) as [H2|H2]; [lia|]. exfalso; apply Hi.
    change (byte_bits 0xA1 ++ byte_bits 0xA1 ++ byte_bits 0xA1 ++ byte_bits 0xF8 ++ flat_map byte_bits (d ++ be16 (crc_ibm_3740 (161%N :: 161%N :: 161%N :: 254%N :: d) None)))%N
      with ((byte_bits 0xA1 ++ byte_bits 0xA1 ++ byte_bits 0xA1 ++ byte_bits 0xF8) ++ flat_map byte_bits (d ++ be16 (crc_ibm_3740 (161%N :: 161%N :: 161%N :: 254%N :: d) None)))%N.
    change (byte_bits 0xA1 ++ byte_bits 0xA1 ++ byte_bits 0xA1 ++ byte_bits 0xFE ++ flat_map byte_bits (d ++ be16 (crc_ibm_3740 (161%N :: 161%N :: 161%N :: 254%N :: d) None)))%N
      with ((byte_bits 0xA1 ++ byte_bits 0xA1 ++ byte_bits 0xA1 ++ byte_bits 0xFE) ++ flat_map byte_bits (d ++ be16 (crc_ibm_3740 (161%N :: 161%N :: 161%N :: 254%N :: d) None)))%N.
    rewrite !app_nth2 by (change (32 <= i); lia). reflexivity.
  - rewrite crc16_bytes_app in E by (apply crc_lt_none; exact Ha). apply Hne. assert (E1 : (crc_ibm_3740 a None, crc_ibm_3740 (DDAM_MARKER_BYTES ++ d) None) = (rc, cc)) by congruence. congruence.
Qed.
Theorem C18_deleted_crc_refuted : forall rnd0 ch data ct t q offset d scope t' w,
  bt_new rnd0 ch data None ct false = Ok t -> bytes_ok d = true ->
  bt_write_sector t q offset d scope true false = Ok (t', w) ->
  wr_not_found w = false -> wr_no_dam w = false -> wr_address_crc_error w = false ->
  exists i c de, In i (md_items (bt_meta t)) /\ i_elem i = ElData c false de true /\
    (undisturbed t i (length d + 6) -> 16 * (length d + 6) <= mfm_len (bt_data t) ->
     forall rnd, exists r k, bt_read_sector rnd t' q None offset DataOnly false = Ok r /\
       rs_data_crc r = Some k /\ integrity_valid k = false).
Proof.
  intros rnd0 ch data ct t q offset d scope t' w Ht Hb Hw N1 N2 N3.
  destruct (loaded_write_read _ _ _ _ _ _ _ _ _ _ _ _ Ht Hb Hw N1 N2 N3) as (k & i & c & de & H1 & H2 & H3 & _ & H5).
  exists i, c, de. split; [eapply nth_error_In; eauto|]. split; [exact H2|]. intros U Hl rnd.
  eexists. eexists. split; [apply (H5 U Hl rnd)|]. split; [reflexivity|]. unfold integrity_valid. cbn [in_recorded in_calculated].
  apply N.eqb_neq. apply deleted_crc_differs. exact Hb.
Qed.
(* ... and a rescan then reports it as damaged, although it was good before the write. *)
Example C18_deleted_ex : exists t t' t'' w, tiny_load tiny_deleted = Ok t /\
  bt_sector_list t = [mkEntry tiny_id (mkAttr false false true false)] /\
  bt_write_sector t tiny_q None [] DataOnly true false = Ok (t', w) /\ w = mkWrite false false false false false false /\
  bt_rescan no_rnd t' = Ok t'' /\ bt_sector_list t'' = [mkEntry tiny_id (mkAttr false true true false)].
Proof.
  eexists. eexists. eexists. eexists. split; [vm_compute; reflexivity|]. split; [vm_compute; reflexivity|]. split; [vm_compute; reflexivity|].
  split; [reflexivity|]. split; vm_compute; reflexivity.
Qed.

(* ---- C19 ---- *)
(* The bytes produced: exactly (cells+15)/16 of them, the System 34 layout cut or padded to that length; and the
   positions of the address marks. *)
Theorem C19_layout_bytes : forall std ct ids pat gap3, pat <> [] ->
  let T := (ct + 15) / 16 in
  exists bytes, format_track_as_bytes std ct ids pat gap3 = Ok (bytes, track_marks std gap3 (filled pat 0 ids)) /\
    bytes = firstn T (track_layout std gap3 T (filled pat 0 ids)) /\ length bytes = T.
Proof.
  intros std ct ids pat gap3 Hp T. eexists. split; [apply format_bytes_spec; exact Hp|]. split; [reflexivity|]. fold T.
  rewrite firstn_length. unfold track_layout. rewrite app_length, repeat_length. lia.
Qed.
Theorem C19_empty_pattern : forall std ct ids gap3, format_track_as_bytes std ct ids [] gap3 = Err ParameterError.
Proof. reflexivity. Qed.
(* The cells: the MFM encoding of the layout with the address marks stamped over it; the index mark (IBM) is stamped
   at byte 92; everything else reads back as the layout, sector by sector. *)
Theorem C19_cells : forall rnd t std ids pat gap3, format_ok t std ids pat gap3 ->
  let ss := filled pat 0 ids in let T := track_size t in
  exists t', bt_format rnd t std ids pat gap3 = Ok t' /\
    mfm_data (bt_data t') = write_marks (mfm false (bits_of (track_layout std gap3 T ss))) (track_marks std gap3 ss) /\
    length (mfm_data (bt_data t')) = 16 * T /\
    exists B, length B = T /\ carries (mfm_data (bt_data t')) B /\
      (forall i o s, nth_error (track_slots std gap3 ss) i = Some (o, s) ->
         slice B (o + 12) 10 = header_field (fs_id s) /\
         slice B (o + 34 + gap2_len std) (length (fs_data s) + 6) = data_field (fs_data s)) /\
      (forall p, p < T -> (iam_at std = None \/ p < 92 \/ 96 <= p) -> nth p B 0%N = nth p (track_layout std gap3 T ss) 0%N).
Proof.
  intros rnd t std ids pat gap3 Hf ss T. destruct (format_ok_good rnd _ _ _ _ _ Hf) as (t' & E & G & _ & _ & Hc).
  fold ss T in G, Hc. exists t'. split; [exact E|]. split; [exact Hc|].
  pose proof (g_holds _ _ _ _ _ G) as H. pose proof (holds_len _ _ _ _ _ H) as Hl.
  assert (HB : length (final_bytes std gap3 T ss) = T).
  { destruct (fo_fits _ _ _ _ _ Hf) as [F1 F2]. fold T ss in F1, F2. unfold final_bytes.
    destruct std; cbn [iam_at]; rewrite ?splice_length by (rewrite track_layout_length by exact F2; cbn; lia); apply track_layout_length; exact F2. }
  rewrite Hl, HB. split; [reflexivity|]. exists (final_bytes std gap3 T ss). split; [exact HB|]. split; [apply H|]. split.
  - intros i o s Hi. split; [apply (h_header _ _ _ _ _ H _ _ _ Hi)|apply (h_data _ _ _ _ _ H _ _ _ Hi)].
  - intros p Hp Hx. unfold final_bytes. destruct (fo_fits _ _ _ _ _ Hf) as [F1 F2]. fold T ss in F1, F2.
    destruct (iam_at std) as [a|] eqn:Ea; [|reflexivity]. assert (a = 92) by (destruct std; cbn in Ea; congruence). subst a.
    destruct Hx as [Hx|Hx]; [discriminate|].
    rewrite <- !nth_default_eq. unfold nth_default. rewrite nth_error_splice by (rewrite track_layout_length by exact F2; cbn; lia).
    destruct (Nat.leb_spec 92 p); cbn [andb]; [|reflexivity]. destruct (Nat.ltb_spec p (92 + length (S34_format_proofs.mark_bytes Iam))) as [Hq|Hq]; [cbn in Hq; lia|reflexivity].
Qed.
(* The IBM layout has an index mark followed by a 50-byte gap and a full 12-byte sync run; here the index mark is stamped
   over the first four sync bytes of the first sector: no gap, and only 8 sync bytes are left. *)
Theorem C19_index_mark_refuted : forall rnd t id ids pat gap3, format_ok t SIbm (id :: ids) pat gap3 ->
  exists t' B, bt_format rnd t SIbm (id :: ids) pat gap3 = Ok t' /\ carries (mfm_data (bt_data t')) B /\
    slice B 80 28 = repeat 0%N 12 ++ [0xC2; 0xC2; 0xC2; 0xFC]%N ++ repeat 0%N 8 ++ [0xA1; 0xA1; 0xA1; 0xFE]%N.
Proof.
  intros rnd t id ids pat gap3 Hf. destruct (format_ok_good rnd _ _ _ _ _ Hf) as (t' & E & G & _ & _ & _).
  exists t'. eexists. split; [exact E|]. split; [apply (g_holds _ _ _ _ _ G)|].
  unfold final_bytes. cbn [iam_at filled]. unfold track_layout, layout. cbn [preamble flat_map]. unfold sector_bytes, header_field, with_crc.
  cbn [fs_id]. reflexivity.
Qed.

(* ---- C20 ---- *)
Definition clean_entries (ids : list DiskChsn) : list SectorMapEntry := map (fun id => mkEntry id (mkAttr false false false false)) ids.
Theorem C20_format_then_scan : forall rnd t std ids pat gap3, format_ok t std ids pat gap3 ->
  exists t', bt_format rnd t std ids pat gap3 = Ok t' /\ bt_sector_list t' = clean_entries ids /\
    md_ids (bt_meta t') = ids /\ md_valid_ids (bt_meta t') = ids /\ bt_sector_ct t' = length ids /\
    (* scanning the cells again, *)
    (forall rnd', ids <> [] -> exists t2, bt_rescan rnd' t' = Ok t2 /\ bt_sector_list t2 = clean_entries ids) /\
    (* and loading them as a new track *)
    (forall rnd' ch, ids <> [] -> exists t2, bt_new rnd' ch (rt_buf (bt_read_raw t')) None (Some (mfm_len (bt_data t'))) false = Ok t2 /\
        bt_sector_list t2 = clean_entries ids /\ mfm_data (bt_data t2) = mfm_data (bt_data t')).
Proof.
  intros rnd t std ids pat gap3 Hf. destruct (format_ok_good rnd _ _ _ _ _ Hf) as (t' & E & G & _ & _ & _).
  set (ss := filled pat 0 ids) in *. assert (Hids : map fs_id ss = ids) by apply filled_ids.
  assert (Hce : forall tt, bt_meta tt = bt_meta t' -> bt_sector_list tt = clean_entries ids).
  { intros tt Ht. unfold bt_sector_list. rewrite Ht, (g_meta _ _ _ _ _ G), items_sector_list. unfold clean_entries. rewrite <- Hids, map_map. reflexivity. }
  assert (Hne : ids <> [] -> ss <> []) by (intros Hi Hs; apply Hi; rewrite <- Hids, Hs; reflexivity).
  exists t'. split; [exact E|]. split; [apply Hce; reflexivity|]. rewrite (g_meta _ _ _ _ _ G). cbn [meta_new md_ids md_valid_ids].
  rewrite items_ids, items_valid_ids. split; [exact Hids|]. split; [exact Hids|]. split; [|split].
  - unfold bt_sector_ct. rewrite (g_meta _ _ _ _ _ G). cbn [meta_new md_items]. transitivity (length (find_sector_ids (track_items std gap3 ss))).
    + generalize (track_items std gap3 ss). intros l. induction l as [|i l IH]; [reflexivity|]. cbn [filter]. unfold find_sector_ids in *. cbn [flat_map].
      rewrite app_length, <- IH. destruct (i_elem i); reflexivity.
    + rewrite items_ids, Hids. reflexivity.
  - intros rnd' Hn. destruct (rescan_good rnd' _ _ _ _ _ G (Hne Hn)) as (t2 & E2 & _ & _ & _ & Hm). exists t2. split; [exact E2|]. apply Hce. exact Hm.
  - intros rnd' ch Hn. destruct (reload_good rnd' ch _ _ _ _ _ G (Hne Hn)) as (t2 & E2 & _ & _ & _ & Hd & Hm). exists t2. split; [exact E2|]. split; [apply Hce; exact Hm|exact Hd].
Qed.
(* Ids with a cylinder above 255 are recorded modulo 256: the requested ids are not found. *)
Definition low_c (i : DiskChsn) : DiskChsn := mkChsn (mkChs (chsn_c i mod 256) (chsn_h i) (chsn_s i)) (chsn_n i).
Theorem C20_wide_cylinder_refuted : forall rnd t std ids pat gap3,
  bt_format rnd t std ids pat gap3 = bt_format rnd t std (map low_c ids) pat gap3.
Proof.
  intros rnd t std ids pat gap3. unfold bt_format. f_equal. unfold format_track_as_bytes. destruct pat as [|b pat]; [reflexivity|].
  f_equal. generalize (b :: pat). intros p. 
  assert (H : forall st, ofold (format_sector std p gap3) ids st = ofold (format_sector std p gap3) (map low_c ids) st).
  { induction ids as [|i ids IH]; intros st; [reflexivity|]. cbn [map ofold].
    assert (Hi : format_sector std p gap3 st (low_c i) = format_sector std p gap3 st i).
    { unfold format_sector. destruct st as [[bytes marks] cur].
      change (chsn_c (low_c i)) with (chsn_c i mod 256)%N. change (chsn_h (low_c i)) with (chsn_h i). change (chsn_s (low_c i)) with (chsn_s i).
      change (chsn_n (low_c i)) with (chsn_n i). change (n_size (low_c i)) with (n_size i).
      replace (as_u8 (chsn_c i mod 256)) with (as_u8 (chsn_c i)) by (unfold as_u8; rewrite N.mod_mod by discriminate; reflexivity). reflexivity. }
    rewrite Hi. destruct (format_sector std p gap3 st i); cbn [obind]; auto. }
  apply H.
Qed.
Theorem C20_wide_cylinder_lost_refuted : exists t ids, format_ok t SIbm (map low_c ids) [0xE5]%N 10 /\
  forall rnd, exists t', bt_format rnd t SIbm ids [0xE5]%N 10 = Ok t' /\ forall id, In id ids -> ~ In id (map me_chsn (bt_sector_list t')).
Proof.
  destruct (blank_new (fun _ => false) (mkCh 5 1) (100 * 80) ltac:(discriminate)) as (t & E & Hl & _).
  exists (bt_set_schema t), [mkChsn (mkChs 256 1 1) 0].
  assert (Hf : format_ok (bt_set_schema t) SIbm (map low_c [mkChsn (mkChs 256 1 1) 0]) [0xE5]%N 10).
  { constructor.
    - exists (fun _ => false), (mkCh 5 1), [], (Some (100 * 80)), t. auto.
    - split; [discriminate|reflexivity].
    - repeat constructor.
    - unfold track_size. change (length (mfm_data (bt_data (bt_set_schema t)))) with (mfm_len (bt_data t)). rewrite Hl.
      split; [apply Nat.leb_le; vm_compute; reflexivity|]. rewrite layout_length. apply Nat.leb_le. vm_compute. reflexivity. }
  split; [exact Hf|]. intros rnd. rewrite C20_wide_cylinder_refuted. destruct (C20_format_then_scan rnd _ _ _ _ _ Hf) as (t' & E' & L & _).
  exists t'. split; [exact E'|]. rewrite L. intros id [<-|[]] [H|[]]. discriminate H.
Qed.

(* ---- C39 ---- *)
(* On every loaded track, a read that reports a sector (normal use: debug off) returns the bytes decoded at a data
   element that directly follows a header with a good CRC which agrees with the query and carries the reported id. *)
Theorem C39_data_follows_header : forall rnd0 ch data ct t rnd q n offset scope r,
  bt_new rnd0 ch data None ct false = Ok t ->
  bt_read_sector rnd t q n offset scope false = Ok r -> rs_not_found r = false ->
  exists k h d c de del, nth_error (md_items (bt_meta t)) k = Some h /\ nth_error (md_items (bt_meta t)) (S k) = Some d /\
    i_elem h = ElHeader c false false /\ i_elem d = ElData c false de del /\ i_end h = i_start d /\
    off_of offset <= i_start h /\ agrees q c /\
    rs_id r = Some c /\ rs_deleted r = del /\ rs_data_crc_error r = de /\
    exists len, read_decoded_buf rnd (bt_data t) len (i_start d) = Ok (rs_buf r).
Proof.
  intros rnd0 ch data ct t rnd q n offset scope r Ht. unfold bt_read_sector, scan_sector_element.
  assert (Hwf : wf_items (md_items (bt_meta t))).
  { destruct (new_cells _ _ _ _ _ Ht) as (m & bits & Em & _ & _ & _ & _ & _ & _ & D).
    destruct D as [(_ & _ & -> & _)|(L & cm & items & m' & Hsc & HL & _ & Es & -> & _)]; [constructor|].
    assert (Hne : mfm_len m <> 0) by (intros H0; rewrite (empty_scan m H0) in Hsc; congruence).
    destruct (mfm_new_fmt _ _ _ Em Hne) as (P1 & _). cbn [meta_new md_items]. eapply scan_metadata_wf; [|exact Es].
    apply (scan_markers_inv m L P1 Hsc). }
  destruct (bt_schema t); cbn [negb obind]; [|discriminate].
  destruct (find_sector_element q _ _) as [ei c ae de del dm b|wc bc wh] eqn:EF; cbn [obind].
  2: { intros E. assert (rs_not_found r = true) by (assert (X : r = mkRead None true false false false None false None wc bc wh false (0, 0) []) by congruence; rewrite X; reflexivity). congruence. }
  apply (find_elem_found q _ _ Hwf) in EF. 
  destruct dm. { intros E H. assert (X : rs_not_found r = true) by (match type of E with Ok ?x = _ => assert (Y : r = x) by congruence; rewrite Y; reflexivity end). congruence. }
  destruct ae; cbn [andb negb]. { intros E H. assert (X : rs_not_found r = true) by (match type of E with Ok ?x = _ => assert (Y : r = x) by congruence; rewrite Y; reflexivity end). congruence. }
  inversion EF as [k h d c' de' del' b' Hh Hd Eh Ed Ee Een Hix Hq|k h c' ae' dm' b' Hh Eh Ha Hix Hs]; subst; [|discriminate].
  unfold oindex. rewrite Hd. cbn [obind]. unfold decode_element.
  match goal with |- context [read_decoded_buf _ _ ?l _] => set (len := l) end.
  destruct (read_decoded_buf rnd (bt_data t) len (i_start d)) as [buf| |] eqn:Er; cbn [obind]; try discriminate.
  rewrite Ed. destruct (crc16_bytes buf) as [[rc cc]| |]; cbn [obind]; try discriminate. intros E _.
  match type of E with Ok ?x = _ => assert (Y : r = x) by congruence end. clear E.
  exists k, h, d, c, de, del. rewrite Y. cbn [rs_id rs_deleted rs_data_crc_error rs_buf].
  repeat (split; [first [assumption|reflexivity|apply agrees_iff; assumption]|]). exists len. exact Er.
Qed.
Example C39_ex : exists t r, tiny_load tiny_normal = Ok t /\ bt_read_sector no_rnd t tiny_q None None DataOnly false = Ok r /\
  rs_not_found r = false /\ rs_buf r = [0xA1; 0xA1; 0xA1; 0xFB; 0xE2; 0x95]%N.
Proof. eexists. eexists. split; [vm_compute; reflexivity|]. split; [vm_compute; reflexivity|]. split; [reflexivity|vm_compute; reflexivity]. Qed.
(* With debug on, a sector whose header CRC is wrong is "found" and its header bytes are returned as its data. *)
Theorem C39_debug_header_refuted : exists t r, tiny_load tiny_badhdr = Ok t /\
  bt_read_sector no_rnd t tiny_q (Some 0%N) None DataOnly true = Ok r /\ rs_not_found r = false /\
  firstn 8 (rs_buf r) = [0xA1; 0xA1; 0xA1; 0xFE; 1; 0; 3; 57]%N.
Proof. eexists. eexists. split; [vm_compute; reflexivity|]. split; [vm_compute; reflexivity|]. split; vm_compute; reflexivity. Qed.

(* ---- C40 ---- *)
(* The sector list never reports a missing data mark: a header without data mark is not listed at all ... *)
Theorem C40_sector_list_refuted : forall t e, In e (bt_sector_list t) -> at_no_dam (me_attr e) = false.
Proof.
  intros t e H. unfold bt_sector_list, meta_sector_list in H. apply in_flat_map in H as (i & _ & Hi). destruct (i_elem i); cbn [In] in Hi; try contradiction.
  destruct Hi as [<-|[]]. reflexivity.
Qed.
(* ... and for a header at the end of the track the CRC status is inverted: here the header CRC is right, the sector is
   not listed, and a read reports a header CRC error. *)
Theorem C40_last_header_refuted : exists t r, tiny_load tiny_lone = Ok t /\ md_ids (bt_meta t) = [tiny_id] /\ bt_sector_list t = [] /\
  bt_read_sector no_rnd t tiny_q None None DataOnly false = Ok r /\ rs_no_dam r = true /\ rs_address_crc_error r = true /\
  exists a, read_decoded_buf no_rnd (bt_data t) 10 16 = Ok a /\ exists c, crc16_bytes a = Ok (c, c).
Proof.
  eexists. eexists. split; [vm_compute; reflexivity|]. split; [vm_compute; reflexivity|]. split; [vm_compute; reflexivity|].
  split; [vm_compute; reflexivity|]. split; [reflexivity|]. split; [reflexivity|].
  eexists. split; [vm_compute; reflexivity|]. eexists. vm_compute. reflexivity.
Qed.

(* ---- C26, bitstream tracks ---- *)
Theorem C26_bitstream_analysis : forall t, bt_schema t = true -> length (md_ids (bt_meta t)) <= 255 ->
  let has f := exists i, In i (md_items (bt_meta t)) /\ f (i_elem i) in
  exists a, bt_analysis t = Ok a /\
    (ta_data_error a = true <-> has (fun e => exists c ae del, e = ElData c ae true del)) /\
    (ta_address_error a = true <-> has (fun e => (exists c de del, e = ElData c true de del) \/ exists c dm, e = ElHeader c true dm)) /\
    (ta_deleted a = true <-> has (fun e => exists c ae de, e = ElData c ae de true)) /\
    (ta_no_dam a = true <-> has (fun e => exists c ae, e = ElHeader c ae true)) /\
    ta_sector_ct a = length (md_ids (bt_meta t)) /\
    (forall n, md_ids (bt_meta t) <> [] -> (ta_consistent_size a = Some n <-> forall id, In id (md_ids (bt_meta t)) -> chsn_n id = n)) /\
    (ta_nonconsecutive a = false <-> forall i id, nth_error (md_ids (bt_meta t)) i = Some id -> chsn_s id = (N.of_nat i + 1)%N).
Proof.
  intros t Hs Hl has. unfold bt_analysis. rewrite Hs. unfold analyze_elements, ids_nonconsecutive.
  destruct (nonconsecutive_spec (md_ids (bt_meta t)) 0 false ltac:(lia)) as (b & E & Hb). rewrite E. cbn [obind].
  eexists. split; [reflexivity|]. cbn [ta_data_error ta_address_error ta_deleted ta_no_dam ta_sector_ct ta_consistent_size ta_nonconsecutive].
  assert (Hex : forall f (P : Elem -> Prop), (forall e, f e = true <-> P e) -> (existsb f (map i_elem (md_items (bt_meta t))) = true <-> has P)).
  { intros f P HP. rewrite existsb_exists. unfold has. split.
    - intros (e & He & Hf). apply in_map_iff in He as (i & <- & Hi). exists i. split; [exact Hi|]. apply HP. exact Hf.
    - intros (i & Hi & Hp). exists (i_elem i). split; [apply in_map; exact Hi|apply HP; exact Hp]. }
  split; [apply Hex|split; [apply Hex|split; [apply Hex|split; [apply Hex|split; [reflexivity|split]]]]].
  - intros [m|c ae dm|c ae de del]; split; try discriminate; try (intros (? & ? & ? & E2); discriminate E2).
    + intros ->. eauto. + intros (? & ? & ? & E2). congruence.
  - intros [m|c ae dm|c ae de del]; split; try discriminate; try (intros [(? & ? & ? & E2)|(? & ? & E2)]; discriminate E2).
    + intros ->. right. eauto. + intros [(? & ? & ? & E2)|(? & ? & E2)]; congruence.
    + intros ->. left. eauto. + intros [(? & ? & ? & E2)|(? & ? & E2)]; congruence.
  - intros [m|c ae dm|c ae de del]; split; try discriminate; try (intros (? & ? & ? & E2); discriminate E2).
    + intros ->. eauto. + intros (? & ? & ? & E2). congruence.
  - intros [m|c ae dm|c ae de del]; split; try discriminate; try (intros (? & ? & E2); discriminate E2).
    + intros ->. eauto. + intros (? & ? & E2). congruence.
  - intros n Hn. apply consistent_spec. exact Hn.
  - rewrite Hb. split; [intros [_ H]; exact H|intros H; split; [reflexivity|exact H]].
Qed.
Example C26_bitstream_ex : exists t a, tiny_load tiny_deleted = Ok t /\ bt_schema t = true /\ bt_analysis t = Ok a /\ ta_deleted a = true /\ ta_no_dam a = false.
Proof. eexists. eexists. split; [vm_compute; reflexivity|]. split; [reflexivity|]. split; [vm_compute; reflexivity|]. split; reflexivity. Qed.
Theorem C26_bitstream_256_refuted : forall t, bt_schema t = true -> 256 <= length (md_ids (bt_meta t)) -> bt_analysis t = Panic.
Proof.
  intros t Hs Hl. unfold bt_analysis. rewrite Hs. unfold analyze_elements, ids_nonconsecutive. rewrite nonconsecutive_panics by lia. reflexivity.
Qed.

(* ---- C27, bitstream tracks ---- *)
Theorem C27_bitstream_next : forall t chs i id, NoDup (map chsn_s (md_ids (bt_meta t))) -> nth_error (md_ids (bt_meta t)) i = Some id ->
  chsn_s id = chs_s chs -> bt_next_id t chs = nth_error (md_ids (bt_meta t)) (S i mod length (md_ids (bt_meta t))).
Proof. exact bt_next_id_spec. Qed.
Fixpoint bs_follow (t : BitTrack) (k : nat) (id : DiskChsn) : option DiskChsn :=
  match k with
  | 0 => Some id
  | S k => match bt_next_id t (mkChs (chsn_c id) (chsn_h id) (chsn_s id)) with Some id' => bs_follow t k id' | None => None end
  end.
Theorem C27_bitstream_chain : forall t k i id, NoDup (map chsn_s (md_ids (bt_meta t))) -> nth_error (md_ids (bt_meta t)) i = Some id ->
  bs_follow t k id = nth_error (md_ids (bt_meta t)) ((i + k) mod length (md_ids (bt_meta t))).
Proof.
  intros t k. induction k as [|k IH]; intros i id ND Hi; cbn [bs_follow].
  - assert (i < length (md_ids (bt_meta t))) by (apply nth_error_Some; congruence). rewrite Nat.add_0_r, Nat.mod_small by auto. auto.
  - rewrite (bt_next_id_spec t _ i id ND Hi) by reflexivity.
    assert (Hl : length (md_ids (bt_meta t)) <> 0) by (intros E; apply length_zero_iff_nil in E; rewrite E in Hi; destruct i; discriminate).
    destruct (nth_error (md_ids (bt_meta t)) (S i mod length (md_ids (bt_meta t)))) as [id'|] eqn:E.
    + rewrite (IH _ _ ND E). rewrite Nat.add_mod_idemp_l by auto. f_equal. f_equal. lia.
    + apply nth_error_None in E. pose proof (Nat.mod_upper_bound (S i) (length (md_ids (bt_meta t))) Hl). lia.
Qed.
Example C27_bitstream_ex : exists t, tiny_load tiny_normal = Ok t /\ NoDup (map chsn_s (md_ids (bt_meta t))) /\ bs_follow t 5 tiny_id = Some tiny_id.
Proof. eexists. split; [vm_compute; reflexivity|]. split; [vm_compute; repeat constructor; intros []|vm_compute; reflexivity]. Qed.

(* ---- C43, bitstream tracks: after any history on a formatted track whose sectors all have size code n, reading all
   sectors up to (and including) the one numbered eot returns their data, concatenated in track order ---- *)
Definition stops_after (eot : N) (ids : list DiskChsn) (m : nat) : Prop :=
  m <= length ids /\ (forall i id, nth_error ids i = Some id -> S i < m -> chsn_s id <> eot) /\
  (m = length ids \/ exists id, 0 < m /\ nth_error ids (m - 1) = Some id /\ chsn_s id = eot).
Lemma upto_stops eot : forall ss, exists m, upto eot ss = firstn m ss /\ length (upto eot ss) = m /\ stops_after eot (map fs_id ss) m.
Proof.
  induction ss as [|s ss (m & E & L & H1 & H2 & H3)]; cbn [upto].
  - exists 0. split; [reflexivity|]. split; [reflexivity|]. split; [reflexivity|]. split; [intros; lia|left; reflexivity].
  - destruct (N.eqb_spec (chsn_s (fs_id s)) eot) as [He|He].
    + exists 1. split; [reflexivity|]. split; [reflexivity|]. split; [cbn [map length]; lia|]. split; [intros; lia|]. right. exists (fs_id s). auto.
    + exists (S m). split; [cbn [firstn]; congruence|]. split; [cbn [length]; congruence|]. split; [cbn [map length]; lia|]. split.
      * intros [|i] id Hi Hl; cbn [map nth_error] in Hi; [congruence|]. eapply H2; [exact Hi|lia].
      * destruct H3 as [->|(id & P & Q & R)]; [left; cbn [map length]; reflexivity|right]. exists id. split; [lia|].
        destruct m as [|m]; [lia|]. cbn [Nat.sub map nth_error] in *. rewrite Nat.sub_0_r in *. auto.
Qed.
Theorem C43_bitstream_read_all : forall rnd t std ids pat gap3 h n eot,
  format_ok t std ids pat gap3 -> Forall (fun w => bytes_ok (b_data w) = true) h -> Forall (fun id => chsn_n id = n) ids ->
  exists t0 t1 datas m r t2, bt_format rnd t std ids pat gap3 = Ok t0 /\ run_requests t0 h = Ok t1 /\ length datas = length ids /\
    (forall rnd' q offset debug k, first_from (header_pos std gap3 ids) ids q (off_of offset) k ->
       exists r' d, bt_read_sector rnd' t1 q None offset DataOnly debug = Ok r' /\ nth_error datas k = Some d /\ read_data_of r' = Ok d) /\
    bt_read_all rnd t1 n eot = Ok (r, t2) /\ mfm_data (bt_data t2) = mfm_data (bt_data t1) /\
    stops_after eot ids m /\ rt_buf r = concat (firstn m datas) /\ rt_len_bytes r = length (rt_buf r) /\
    rt_sectors_read r = N.min 65535 (N.of_nat m) /\
    (rt_not_found r = true <-> ids = []) /\ rt_deleted r = false /\ rt_address_crc_error r = false /\ rt_data_crc_error r = false.
Proof.
  intros rnd t std ids pat gap3 h n eot Hf Hh Hn. destruct (format_ok_good rnd _ _ _ _ _ Hf) as (t0 & E0 & G0 & S0 & _ & _).
  destruct (history_good std gap3 h _ _ _ G0 S0 Hh) as (t1 & ss1 & B1 & E1 & G1 & (_ & S1 & _) & Hids & _).
  rewrite filled_ids in Hids.
  assert (Hn1 : Forall (fun s => chsn_n (fs_id s) = n) ss1).
  { apply Forall_forall. intros s Hs. rewrite Forall_forall in Hn. apply Hn. rewrite <- Hids. apply in_map. exact Hs. }
  destruct (read_all_good rnd std gap3 ss1 t1 B1 n eot G1 Hn1) as (r & t2 & Er & _ & Hd & R1 & R2 & R3 & R4 & R5 & R6 & R7).
  destruct (upto_stops eot ss1) as (m & Um & Ul & Us). rewrite Hids in Us.
  exists t0, t1, (map fs_data ss1), m, r, t2. split; [exact E0|]. split; [exact E1|].
  split; [rewrite <- Hids, !map_length; reflexivity|]. split.
  { intros rnd' q offset debug k Hk. rewrite <- Hids in Hk. 
    destruct (lookup_first std gap3 ss1 q (off_of offset) k (g_ok _ _ _ _ _ G1) Hk) as (o & s & _ & Hlk).
    assert (Hs1 : bt_schema t1 = true) by congruence.
    pose proof (S34_ops_proofs.read_found _ _ _ _ _ G1 rnd' q offset k o s debug Hs1 Hlk) as Err.
    apply lookup_some in Hlk as (Hk1 & _). apply slot_sec in Hk1.
    eexists. exists (fs_data s). split; [exact Err|]. split; [rewrite nth_error_map, Hk1; reflexivity|].
    unfold read_data_of. cbn [rs_range rs_buf]. rewrite data_field_split. rewrite !app_length. cbn [length].
    destruct (Nat.ltb_spec (4 + length (fs_data s)) 4); [lia|]. cbn [orb].
    match goal with |- context [?a <? ?b] => destruct (Nat.ltb_spec a b); [lia|] end.
    f_equal. replace (4 + length (fs_data s) - 4) with (length (fs_data s)) by lia.
    unfold slice. rewrite <- app_assoc. cbn [app skipn]. rewrite firstn_app, firstn_all, Nat.sub_diag. cbn [firstn]. apply app_nil_r. }
  split; [exact Er|]. split; [exact Hd|]. split; [exact Us|]. split; [rewrite R1, Um, firstn_map; reflexivity|].
  split; [exact R2|]. split; [rewrite R7, Ul; reflexivity|]. split; [|auto].
  rewrite R3. rewrite <- Hids. split; [intros ->; reflexivity|]. intros X. apply map_eq_nil in X. exact X.
Qed.
Example C43_bitstream_ex : Forall (fun id => chsn_n id = 0%N) [xid 1; xid 2] /\ stops_after 1 [xid 1; xid 2] 1.
Proof. split; [repeat constructor|]. split; [cbn; lia|]. split; [intros; lia|]. right. exists (xid 1). auto. Qed.

Print Assumptions C18_read_last_write.
Print Assumptions C18_absent.
Print Assumptions C18_write_frame.
Print Assumptions C18_write_frame_formatted.
Print Assumptions C18_loaded_write_read.
Print Assumptions C18_deleted_crc_refuted.
Print Assumptions C19_layout_bytes.
Print Assumptions C19_empty_pattern.
Print Assumptions C19_cells.
Print Assumptions C19_index_mark_refuted.
Print Assumptions C20_format_then_scan.
Print Assumptions C20_wide_cylinder_refuted.
Print Assumptions C20_wide_cylinder_lost_refuted.
Print Assumptions C39_data_follows_header.
Print Assumptions C39_debug_header_refuted.
Print Assumptions C40_sector_list_refuted.
Print Assumptions C40_last_header_refuted.
Print Assumptions C26_bitstream_analysis.
Print Assumptions C26_bitstream_256_refuted.
Print Assumptions C27_bitstream_next.
Print Assumptions C27_bitstream_chain.
Print Assumptions C43_bitstream_read_all.
