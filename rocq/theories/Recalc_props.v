(* Recalc_props.v - C73: recalculating the CRC of a sector on any loaded track. *)
From Verif Require Import Base Base_lemmas Chs_model Crc_model BitRing_model Mfm_model Mfm_proofs Types_model System34_model BitStream_model Bs_general_proofs
  Bs_loaded_proofs BitStream_spec BitStream_props Total_spec Total_proofs Total_props Session_spec Session_proofs Session_props.
From Coq Require Import Lia.
Import ListNotations.

Lemma in_slice {A} (l : list A) a n x : In x (slice l a n) -> In x l.
Proof. unfold slice. intros H. rewrite <- (firstn_skipn a l). apply in_or_app. right. rewrite <- (firstn_skipn n (skipn a l)). apply in_or_app. left. exact H. Qed.
Lemma decoded_bytes rnd m n off l : sound m -> read_decoded_buf rnd m n off = Ok l -> bytes_ok l = true.
Proof.
  intros H E. apply bytes_ok_Forall. unfold read_decoded_buf in E.
  assert (G : forall k acc r, Forall (fun b => (b < 256)%N) acc -> ofold (fun acc k => let! b := read_decoded_u8 rnd m (off + k * MFM_BYTE_LEN) in Ok (b :: acc)) k acc = Ok r -> Forall (fun b => (b < 256)%N) r).
  { induction k as [|k ks IH]; intros acc r Ha; cbn [ofold]; [intros X; injection X as <-; exact Ha|]. rewrite read_decoded_u8_spec by exact (proj1 H). cbn [obind]. apply IH. constructor; [|exact Ha].
    match goal with |- (bits_val ?x < _)%N => pose proof (bits_val_lt x) as B; rewrite map_length, seq_length in B; exact B end. }
  destruct (ofold _ (seq 0 n) []) as [r| |] eqn:Er; cbn [omap] in E; try discriminate E. injection E as <-. apply Forall_rev. exact (G _ _ _ (Forall_nil _) Er).
Qed.
(* On a loaded track: after recalculating the CRC of a sector that can be read, the sector reads back with the
   same bytes and a valid CRC. *)
Theorem C73_recalc : forall rnd0 ch data ct t rnd q offset r d, bt_new rnd0 ch data None ct false = Ok t -> mfm_data (bt_data t) <> [] ->
  bt_read_sector rnd t q None offset DataOnly false = Ok r -> read_data_of r = Ok d -> rs_not_found r = false -> rs_deleted r = false ->
  exists t', bt_recalculate_crc rnd t q offset = Ok t' /\ same_layout t t' /\
    exists i c de, In i (md_items (bt_meta t)) /\ i_elem i = ElData c false de false /\ length d = n_size c /\
      (undisturbed t i (length d + 6) -> 16 * (length d + 6) <= mfm_len (bt_data t) ->
       forall rnd', exists r', bt_read_sector rnd' t' q None offset DataOnly false = Ok r' /\ clean_read r' c /\ read_data_of r' = Ok d).
Proof.
  intros rnd0 ch data ct t rnd q offset r d Ht Hne Hr Hd Hn Hdel. pose proof (loaded_alive _ _ _ _ _ _ _ Ht Hne) as HA.
  assert (K : bytes_ok d = true /\ exists t' w, bt_write_sector t q offset d CrcOnly false false = Ok (t', w) /\ same_layout t t' /\ wr_not_found w = false /\ wr_no_dam w = false /\ wr_address_crc_error w = false).
  { destruct (read_total_sector rnd t q None offset DataOnly HA ltac:(discriminate)) as [[_ E]|(r1 & E & T)]; rewrite Hr in E; [discriminate E|].
    apply (f_equal (fun x => match x with Ok y => y | _ => r end)) in E. subst r1. destruct T as [(X & _)|(c1 & Hid & _ & Lb & Rg)]; [rewrite X in Hn; discriminate Hn|].
    assert (Ld : length d = n_size c1).
    { unfold read_data_of in Hd. rewrite Rg in Hd. destruct ((n_size c1 + 4 <? 4) || (length (rs_buf r) <? n_size c1 + 4)); [discriminate Hd|]. injection Hd as <-. rewrite slice_length by lia. lia. }
    assert (Bd : bytes_ok (rs_buf r) = true -> bytes_ok d = true).
    { intros B. unfold read_data_of in Hd. destruct (rs_range r) as [a b]. destruct ((b <? a) || (length (rs_buf r) <? b)); [discriminate Hd|]. injection Hd as <-.
      rewrite bytes_ok_Forall in *. apply Forall_forall. intros x Hx. rewrite Forall_forall in B. apply B. exact (in_slice _ _ _ _ Hx). }
    destruct (write_sector_total t q offset d CrcOnly false false HA) as [[e Ew]|(t' & w & Ew & _ & SL)].
    - exfalso. unfold bt_write_sector, bt_read_sector, scan_sector_element in *. destruct (bt_schema t); cbn [negb obind] in *; [|discriminate Hr].
      destruct (find_sector_element q (md_items (bt_meta t)) (off_of offset)) as [k c ae de del nd b|wc bc wh] eqn:Ef; [|discriminate Ew].
      unfold find_sector_element in Ef. destruct (found_item _ _ _ _ _ _ _ _ _ _ _ _ _ _ _ Ef) as (i & j & Ek & Hj & Hi). cbn in Ek. subst j.
      destruct nd; [discriminate Ew|]. cbn [negb] in *. rewrite andb_true_r in *. destruct ae; [discriminate Ew|].
      destruct Hi as [[Hi _]|[_ Hi]]; [|discriminate Hi]. unfold oindex in *. rewrite Hj in *. cbn [obind] in *.
      destruct (decode_element rnd (bt_data t) i DataOnly _) as [[[buf rg] x]| |]; cbn [obind] in Hr; try discriminate Hr. destruct x; [|discriminate Hr]. injection Hr as <-.
      cbn [rs_id rs_deleted] in *. subst del. injection Hid as <-. cbn [Bool.eqb negb] in Ew. rewrite Ld, Nat.eqb_refl in Ew. cbn [negb] in Ew.
      destruct (write_total (bt_data t) d (i_start i + 4 * MFM_BYTE_LEN) (proj1 HA)) as (m1 & n1 & E1 & S1 & _).
      destruct (write_total m1 (be16 (crc_ibm_3740 d (Some (crc_ibm_3740 DAM_MARKER_BYTES None)))) (i_start i + (4 + length d) * MFM_BYTE_LEN) S1) as (m2 & n2 & E2 & _).
      unfold encode_element in Ew. rewrite Hi in Ew. cbv zeta in Ew. rewrite E1 in Ew. cbn [obind] in Ew. rewrite E2 in Ew. cbn [obind] in Ew. discriminate Ew.
    - split.
      + apply Bd. unfold bt_read_sector in Hr. destruct (negb (bt_schema t)); [discriminate Hr|]. destruct (scan_sector_element t q (off_of offset)) as [[k c ae de del nd b|wc bc wh]| |]; cbn [obind] in Hr; try discriminate Hr.
        2:{ injection Hr as <-. discriminate Hn. }
        destruct nd; [injection Hr as <-; discriminate Hn|]. destruct (ae && negb false); [injection Hr as <-; discriminate Hn|].
        destruct (oindex (md_items (bt_meta t)) k) as [i| |]; cbn [obind] in Hr; try discriminate Hr. unfold decode_element in Hr.
        destruct (read_decoded_buf rnd (bt_data t) _ (i_start i)) as [buf| |] eqn:Eb; cbn [obind] in Hr; try discriminate Hr.
        pose proof (decoded_bytes _ _ _ _ _ (proj1 HA) Eb) as Bb.
        destruct (i_elem i); cbn [obind] in Hr; [discriminate Hr| |];
          (destruct (crc16_bytes buf) as [[x y]| |]; cbn [obind] in Hr; try discriminate Hr; injection Hr as <-; exact Bb).
      + exists t', w. split; [exact Ew|]. split; [exact SL|].
        unfold bt_write_sector, bt_read_sector, scan_sector_element in *. destruct (bt_schema t); cbn [negb obind] in *; [|discriminate Hr].
        destruct (find_sector_element q (md_items (bt_meta t)) (off_of offset)) as [k c ae de del nd b|wc bc wh] eqn:Ef; [|injection Hr as <-; discriminate Hn].
        destruct nd; [injection Hr as <-; discriminate Hn|]. cbn [negb] in *. rewrite andb_true_r in *. destruct ae; [injection Hr as <-; discriminate Hn|].
        destruct (negb (Bool.eqb false del)); [discriminate Ew|]. destruct (negb (n_size c =? length d)); [discriminate Ew|].
        destruct (oindex (md_items (bt_meta t)) k) as [i| |]; cbn [obind] in Ew; try discriminate Ew.
        destruct (encode_element (bt_data t) i d) as [[[m' i'] n']| |]; cbn [obind] in Ew; try discriminate Ew. injection Ew as _ <-. split; [reflexivity|]. split; reflexivity. }
  destruct K as (Bd & t' & w & Ew & SL & N1 & N2 & N3). exists t'. split; [|split; [exact SL|]].
  - unfold bt_recalculate_crc. rewrite Hr. cbn [obind]. rewrite Hd. cbn [obind]. rewrite Hdel, Ew. reflexivity.
  - exact (C18_loaded_write_read rnd0 ch data ct t q offset d CrcOnly t' w Ht Bd Ew N1 N2 N3).
Qed.
Example C73_recalc_ex : exists t r t', tiny_load tiny_normal = Ok t /\ bt_read_sector no_rnd t tiny_q None None DataOnly false = Ok r /\ rs_not_found r = false /\ rs_deleted r = false /\
  read_data_of r = Ok [] /\ bt_recalculate_crc no_rnd t tiny_q None = Ok t' /\ mfm_data (bt_data t) <> [].
Proof.
  eexists. eexists. eexists. split; [vm_compute; reflexivity|]. split; [vm_compute; reflexivity|]. split; [reflexivity|]. split; [reflexivity|]. split; [vm_compute; reflexivity|]. split; [vm_compute; reflexivity|]. vm_compute. discriminate.
Qed.

Print Assumptions C73_recalc.
