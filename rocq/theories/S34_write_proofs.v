(* S34_write_proofs.v - a sector write keeps the track invariant and changes exactly one sector. *)
From Verif Require Import Base Base_lemmas Chs_model Chs_proofs BitRing_model BitRing_proofs Mfm_model Mfm_spec Mfm_proofs Marker_proofs Codec_lemmas
  Crc_model Crc16_proofs Types_model System34_model System34_spec Stream_proofs S34_layout_proofs S34_format_proofs S34_scan_proofs S34_clock_proofs
  S34_meta_proofs BitStream_model TreeMap_proofs MetaSector_proofs S34_track_proofs S34_ops_proofs.
From Coq Require Import Lia.

Definition data_crc (d : list N) : list N := be16 (crc_ibm_3740 ([0xA1; 0xA1; 0xA1; 0xFB]%N ++ d) None).
Definition write_cells (l : list bool) (a : nat) (d : list N) : list bool :=
  circ_write (circ_write l (16 * (a + 4)) (mfm false (bits_of d))) (16 * (a + 4 + length d)) (mfm false (bits_of (data_crc d))).
Definition write_bytes (B : list N) (a : nat) (d : list N) : list N :=
  splice (splice B (a + 4) d) (a + 4 + length d) (data_crc d).

Lemma data_crc_length d : length (data_crc d) = 2. Proof. reflexivity. Qed.
Lemma write_cells_length l a d : length (write_cells l a d) = length l.
Proof. unfold write_cells. rewrite !circ_write_length. reflexivity. Qed.
Lemma write_cells_outside l a d j : 16 * (a + 6 + length d) <= length l -> j < 16 * (a + 4) \/ 16 * (a + 6 + length d) <= j ->
  nth j (write_cells l a d) false = nth j l false.
Proof.
  intros Hl Hj. unfold write_cells.
  rewrite circ_write_nth by (rewrite circ_write_length, mfm_length, bits_of_length, data_crc_length; lia).
  rewrite mfm_length, bits_of_length, data_crc_length.
  rewrite circ_write_nth by (rewrite mfm_length, bits_of_length; lia). rewrite mfm_length, bits_of_length.
  destruct (Nat.leb_spec (16 * (a + 4 + length d)) j), (Nat.ltb_spec j (16 * (a + 4 + length d) + 2 * (8 * 2))),
    (Nat.leb_spec (16 * (a + 4)) j), (Nat.ltb_spec j (16 * (a + 4) + 2 * (8 * length d))); cbn [andb]; auto; lia.
Qed.
Lemma write_bytes_length B a d : a + 6 + length d <= length B -> length (write_bytes B a d) = length B.
Proof. intros H. unfold write_bytes. rewrite !splice_length; rewrite ?data_crc_length, ?splice_length; lia. Qed.
Lemma write_bytes_other B a d p n : a + 6 + length d <= length B -> p + n <= a + 4 \/ a + 6 + length d <= p ->
  slice (write_bytes B a d) p n = slice B p n.
Proof.
  intros H Hp. unfold write_bytes. rewrite slice_splice_other; rewrite ?data_crc_length, ?splice_length by lia; [|lia|lia].
  apply slice_splice_other; lia.
Qed.
Lemma skipn_skipn' {A} (l : list A) a p : skipn a (skipn p l) = skipn (a + p) l.
Proof. apply list_eq_nth_error. intros j. rewrite !nth_error_skipn. f_equal. lia. Qed.
Lemma slice_cat {A} (l : list A) p a b : slice l p (a + b) = slice l p a ++ slice l (p + a) b.
Proof.
  unfold slice. rewrite <- (firstn_skipn a (skipn p l)) at 1. rewrite skipn_skipn'.
  replace (a + p) with (p + a) by lia.
  destruct (Nat.lt_ge_cases (length (skipn p l)) a) as [Hlt|Hge].
  - rewrite (firstn_all2 (n := a)) by lia. rewrite (skipn_all2 (n := p + a)) by (rewrite skipn_length in Hlt; lia).
    rewrite firstn_nil, !app_nil_r. apply firstn_all2. lia.
  - rewrite firstn_app. rewrite firstn_length_le by lia. rewrite firstn_all2 by (rewrite firstn_length_le; lia).
    f_equal. f_equal. lia.
Qed.
Lemma write_bytes_data B a d d0 : a + 6 + length d <= length B -> length d0 = length d ->
  slice B a (length d0 + 6) = data_field d0 -> slice (write_bytes B a d) a (length d + 6) = data_field d.
Proof.
  intros H E Hs. replace (length d + 6) with (4 + (length d + 2)) by lia. rewrite slice_cat, slice_cat.
  rewrite write_bytes_other by lia.
  assert (E4 : slice B a 4 = [0xA1; 0xA1; 0xA1; 0xFB]%N).
  { rewrite <- (slice_prefix B a (length d0 + 6) 4) by lia. rewrite Hs. reflexivity. }
  rewrite E4. unfold data_field, with_crc. rewrite <- app_assoc. f_equal. f_equal.
  - unfold write_bytes. rewrite slice_splice_other; rewrite ?data_crc_length, ?splice_length by lia; [|lia|lia].
    apply slice_splice_same. lia.
  - unfold write_bytes. pose proof (slice_splice_same (splice B (a + 4) d) (a + 4 + length d) (data_crc d)) as E5.
    rewrite splice_length, data_crc_length in E5 by lia. apply E5. lia.
Qed.

Lemma write_holds std gap3 ss l B i o s d : holds std gap3 ss l B ->
  nth_error (track_slots std gap3 ss) i = Some (o, s) -> length d = length (fs_data s) -> bytes_ok d = true ->
  holds std gap3 (upd ss i (mkFS (fs_id s) d)) (write_cells l (dam_at std o) d) (write_bytes B (dam_at std o) d).
Proof.
  intros H Hs Hd Hb. set (a := dam_at std o). set (s' := mkFS (fs_id s) d).
  pose proof (holds_slot _ _ _ _ _ H _ _ _ Hs) as [Hpre Hend].
  assert (Ha : a + 6 + length d <= length B) by (unfold a, dam_at; rewrite Hd; clear - Hend; lia).
  pose proof (holds_len _ _ _ _ _ H) as Hlen.
  assert (Eslots : track_slots std gap3 (upd ss i s') = upd (track_slots std gap3 ss) i (o, s')).
  { unfold track_slots. eapply slots_upd; eauto. }
  assert (Hi : i < length (track_slots std gap3 ss)) by (apply nth_error_Some; congruence).
  assert (Hcases : forall j b x, nth_error (track_slots std gap3 (upd ss i s')) j = Some (b, x) ->
            (j = i /\ b = o /\ x = s') \/ (j <> i /\ nth_error (track_slots std gap3 ss) j = Some (b, x))).
  { intros j b x Hj. rewrite Eslots in Hj. destruct (Nat.eq_dec j i) as [->|Hne].
    - rewrite nth_error_upd_same in Hj by auto. injection Hj as <- <-. auto.
    - rewrite nth_error_upd_other in Hj by auto. auto. }
  assert (Hdisj : forall j b x, j <> i -> nth_error (track_slots std gap3 ss) j = Some (b, x) ->
            dam_at std b + length (fs_data x) + 6 <= a + 4 \/ a + 6 + length d <= idam_at b).
  { intros j b x Hne Hj. destruct (Nat.lt_ge_cases j i) as [Hlt|Hge].
    - left. pose proof (slots_spaced _ _ _ _ _ _ _ _ _ _ Hlt Hj Hs) as Hsp. unfold a, dam_at, sector_len in *. clear - Hsp. lia.
    - right. assert (Hlt : i < j) by (clear - Hne Hge; lia). pose proof (slots_spaced _ _ _ _ _ _ _ _ _ _ Hlt Hs Hj) as Hsp.
      unfold a, dam_at, idam_at, sector_len in *. rewrite Hd. clear - Hsp. lia. }
  assert (Esum : length (layout std gap3 (upd ss i s')) = length (layout std gap3 ss)).
  { rewrite !layout_length. f_equal. rewrite map_upd. f_equal. apply upd_same.
    pose proof (slots_sec _ _ _ _ _ _ _ Hs) as Hsec. rewrite nth_error_map, Hsec. cbn. f_equal. unfold sector_len. cbn [s' fs_data].
    rewrite Hd. reflexivity. }
  assert (Ea1 : a1_marks std (track_slots std gap3 (upd ss i s')) = a1_marks std (track_slots std gap3 ss)).
  { rewrite Eslots. unfold a1_marks. rewrite !flat_map_concat_map. f_equal. rewrite map_upd. apply upd_same.
    rewrite nth_error_map, Hs. reflexivity. }
  assert (Epo : map (post_at std) (track_slots std gap3 (upd ss i s')) = map (post_at std) (track_slots std gap3 ss)).
  { rewrite Eslots, map_upd. apply upd_same. rewrite nth_error_map, Hs. cbn. f_equal. unfold post_at. cbn [fst snd s' fs_data]. rewrite Hd. reflexivity. }
  assert (Emk : track_marks std gap3 (upd ss i s') = track_marks std gap3 ss) by (rewrite !track_marks_split, Ea1; reflexivity).
  assert (HB' : length (write_bytes B a d) = length B) by (apply write_bytes_length; auto).
  pose proof (h_carries _ _ _ _ _ H) as Hc.
  assert (Hc1 : carries (circ_write l (16 * (a + 4)) (mfm false (bits_of d))) (splice B (a + 4) d)).
  { apply carries_write; auto. clear - Ha. lia. }
  constructor.
  - unfold write_cells, write_bytes. apply carries_write; auto. rewrite splice_length, data_crc_length by (clear - Ha; lia). clear - Ha. lia.
  - unfold write_bytes. apply splice_bytes_ok.
    + rewrite splice_length, data_crc_length by (clear - Ha; lia). clear - Ha; lia.
    + apply splice_bytes_ok; auto; [clear - Ha; lia|apply H].
    + apply be16_ok, crc_lt_none. rewrite bytes_ok_app, Hb. reflexivity.
  - destruct (h_fits _ _ _ _ _ H) as [F1 F2]. split; rewrite HB'; auto. rewrite Esum. auto.
  - intros j b x Hj. destruct (Hcases _ _ _ Hj) as [(-> & -> & ->)|(Hne & Hj')].
    + cbn [s' fs_id]. rewrite write_bytes_other by (auto; unfold a, dam_at, idam_at; clear; lia). apply (h_header _ _ _ _ _ H _ _ _ Hs).
    + rewrite write_bytes_other; auto; [apply (h_header _ _ _ _ _ H _ _ _ Hj')|].
      destruct (Hdisj _ _ _ Hne Hj'); [left|right; auto]. unfold dam_at, idam_at in *. clear - H0. lia.
  - intros j b x Hj. destruct (Hcases _ _ _ Hj) as [(-> & -> & ->)|(Hne & Hj')].
    + cbn [s' fs_data]. apply (write_bytes_data B a d (fs_data s)); auto. apply (h_data _ _ _ _ _ H _ _ _ Hs).
    + rewrite write_bytes_other; auto; [apply (h_data _ _ _ _ _ H _ _ _ Hj')|].
      destruct (Hdisj _ _ _ Hne Hj'); [left; clear - H0; lia|right]. unfold dam_at, idam_at in *. clear - H0. lia.
  - intros p Hp. rewrite write_bytes_other; auto; [apply (h_iam _ _ _ _ _ H _ Hp)|].
    left. rewrite preamble_length in Hpre. unfold a, dam_at. clear - Hp Hpre. destruct std; cbn in Hp; try discriminate; injection Hp as <-; lia.
  - rewrite Ea1, Epo. set (C := gaps _ _ _). unfold write_cells.
    pose proof (clocks_ok_write l C (8 * (a + 4)) (bits_of d) (h_clocks _ _ _ _ _ H)) as W1.
    rewrite bits_of_length in W1. replace (2 * (8 * (a + 4))) with (16 * (a + 4)) in W1 by (clear; lia).
    specialize (W1 ltac:(rewrite Hlen; clear - Ha; lia)).
    pose proof (clocks_ok_write _ _ (8 * (a + 4 + length d)) (bits_of (data_crc d)) W1) as W2.
    rewrite bits_of_length, data_crc_length in W2. replace (2 * (8 * (a + 4 + length d))) with (16 * (a + 4 + length d)) in W2 by (clear; lia).
    specialize (W2 ltac:(rewrite circ_write_length, Hlen; clear - Ha; lia)).
    eapply clocks_ok_weaken; [exact W2|]. intros k [[[[Hk _]|Hk] Hnk]|Hk].
    + exact Hk.
    + exfalso. apply Hnk. clear - Hk. lia.
    + right. right. exists (post_at std (o, s)). split; [apply in_map; apply nth_error_In in Hs; exact Hs|].
      unfold post_at. cbn [fst snd]. rewrite Hk, Hd. unfold a, dam_at. clear. lia.
  - rewrite Emk. intros k b Hin. eapply mark_at_outside; [apply (h_marks _ _ _ _ _ H _ _ Hin)|apply write_cells_length|].
    intros j Hj. apply write_cells_outside; [rewrite Hlen; clear - Ha; lia|].
    rewrite track_marks_split in Hin. apply in_app_or in Hin as [Hin|Hin].
    + destruct (iam_at std) as [p|] eqn:Ei; [|destruct Hin]. destruct Hin as [Hin|[]]. injection Hin as <- <-. left.
      rewrite preamble_length in Hpre. unfold a, dam_at. clear - Ei Hpre Hj. destruct std; cbn in Ei; try discriminate; injection Ei as <-; lia.
    + destruct (a1_marks_in _ _ _ _ _ Hin) as (j' & b' & x & Hj' & Hk).
      destruct (Nat.eq_dec j' i) as [->|Hne].
      * rewrite Hs in Hj'. injection Hj' as <- <-. left. unfold a. destruct Hk as [[_ ->]|[_ ->]]; unfold idam_at, dam_at in *; clear - Hj; lia.
      * destruct (Hdisj _ _ _ Hne Hj') as [Hdj|Hdj]; [left|right]; destruct Hk as [[_ ->]|[_ ->]]; unfold idam_at, dam_at in *; clear - Hj Hdj; lia.
Qed.

Lemma track_items_upd std gap3 ss i s d : nth_error ss i = Some s -> length d = length (fs_data s) ->
  track_items std gap3 (upd ss i (mkFS (fs_id s) d)) = track_items std gap3 ss.
Proof.
  intros H Hd. unfold track_items, track_slots. do 2 f_equal. generalize (length (preamble std)). revert i H.
  induction ss as [|x ss IH]; intros [|i] H off; cbn [nth_error] in H; try discriminate; cbn [upd slots flat_map].
  - injection H as ->. unfold sector_len. cbn [fs_data]. rewrite Hd. reflexivity.
  - f_equal. apply IH; auto.
Qed.
Lemma track_marks_upd std gap3 ss i s d : nth_error ss i = Some s -> length d = length (fs_data s) ->
  track_marks std gap3 (upd ss i (mkFS (fs_id s) d)) = track_marks std gap3 ss.
Proof.
  intros H Hd. unfold track_marks, track_slots. f_equal. generalize (length (preamble std)). revert i H.
  induction ss as [|x ss IH]; intros [|i] H off; cbn [nth_error] in H; try discriminate; cbn [upd slots flat_map].
  - injection H as ->. unfold sector_len. cbn [fs_data]. rewrite Hd. reflexivity.
  - f_equal. apply IH; auto.
Qed.
Lemma sector_ok_upd ss i s d : Forall sector_ok ss -> nth_error ss i = Some s -> length d = length (fs_data s) -> bytes_ok d = true ->
  Forall sector_ok (upd ss i (mkFS (fs_id s) d)).
Proof.
  intros H Hs Hd Hb. revert i Hs. induction H as [|x ss Hx Hss IH]; intros [|i] Hs; cbn [nth_error] in Hs; try discriminate; cbn [upd].
  - injection Hs as ->. constructor; auto. destruct Hx as (H1 & H2 & H3). repeat split; cbn [fs_data fs_id]; auto; congruence.
  - constructor; auto.
Qed.

Lemma encode_crc d : be16 (crc_ibm_3740 d (Some (crc_ibm_3740 DAM_MARKER_BYTES None))) = data_crc d.
Proof. unfold data_crc. rewrite crc_app. reflexivity. Qed.

Definition write_codec (m : Mfm) (a : nat) (d : list N) : Mfm := with_bits m (ring_with (m_bits m) (write_cells (mfm_data m) a d)).

Lemma encode_data m B f a d id : ready m B f -> f <= 16 * (a + 4) ->
  encode_element m (mkInst (ElData id false false false) (16 * a) (16 * a + 64 + 16 * n_size id) (Some id) false) d =
  Ok (write_codec m a d, mkInst (ElData id false false false) (16 * a) (16 * a + 64 + 16 * n_size id) (Some id) false, 2 * length d + 4).
Proof.
  intros Hr Hfa. unfold encode_element. cbn [i_elem i_start]. unfold MFM_BYTE_LEN. rewrite encode_crc.
  replace (16 * a + 4 * 16) with (16 * (a + 4)) by (clear; lia).
  rewrite (write_encoded_buf_spec m d (16 * (a + 4)) 0 (rd_wf _ _ _ Hr) (ready_phase _ _ _ _ _ Hr Hfa)). cbn [obind].
  rewrite Nat.add_0_r.
  assert (El1 : length (circ_write (mfm_data m) (16 * (a + 4)) (mfm false (bits_of d))) = mfm_len m) by (rewrite circ_write_length; reflexivity).
  assert (Hph : in_phase m (16 * (a + 4 + length d)) 1 0) by (eapply ready_phase; [exact Hr|clear - Hfa; lia]).
  replace (16 * a + (4 + length d) * 16) with (16 * (a + 4 + length d)) by (clear; lia).
  rewrite (write_encoded_buf_spec (with_bits m (ring_with (m_bits m) (circ_write (mfm_data m) (16 * (a + 4)) (mfm false (bits_of d))))) _
            (16 * (a + 4 + length d)) 0 (mfm_wf_with_bits _ _ (rd_wf _ _ _ Hr) El1) Hph).
  cbn [obind]. rewrite Nat.add_0_r, data_crc_length. unfold set_elem. cbn [i_elem i_start i_end i_chsn i_last].
  unfold write_codec, write_cells. generalize (mfm false (bits_of (data_crc d))). intros x. reflexivity.
Qed.

Lemma write_step_gen t q offset d scope debug ei id i m' n' :
  bt_schema t = true ->
  find_sector_element q (md_items (bt_meta t)) (off_of offset) = Found ei id false false false false false ->
  n_size id = length d -> nth_error (md_items (bt_meta t)) ei = Some i -> encode_element (bt_data t) i d = Ok (m', i, n') ->
  bt_write_sector t q offset d scope false debug =
    Ok (mkTrack (bt_ch t) m' (bt_meta t) true, mkWrite false false false (opt_ne (q_c q) (chsn_c id)) false (opt_ne (q_h q) (chsn_h id))).
Proof.
  intros Hs Hf Hn Hi He. unfold bt_write_sector, scan_sector_element. rewrite Hs. cbn [negb obind]. rewrite Hf. cbn [andb Bool.eqb negb].
  rewrite Hn, Nat.eqb_refl. cbn [negb]. unfold oindex. rewrite Hi. cbn [obind]. rewrite He. cbn [obind].
  rewrite (upd_same _ _ _ Hi). destruct (bt_meta t); reflexivity.
Qed.

Section Write.
Context (std : Standard) (gap3 : nat) (ss : list fsector) (t : BitTrack) (B : list N).
Hypothesis (G : good std gap3 ss t B).

Lemma write_found q offset k o s d scope debug : bt_schema t = true ->
  lookup q (off_of offset) (track_slots std gap3 ss) = Some (k, (o, s)) ->
  length d = length (fs_data s) -> bytes_ok d = true ->
  exists t', bt_write_sector t q offset d scope false debug =
      Ok (t', mkWrite false false false (opt_ne (q_c q) (chsn_c (fs_id s))) false (opt_ne (q_h q) (chsn_h (fs_id s)))) /\
    good std gap3 (upd ss k (mkFS (fs_id s) d)) t' (write_bytes B (dam_at std o) d) /\
    mfm_data (bt_data t') = write_cells (mfm_data (bt_data t)) (dam_at std o) d /\
    bt_meta t' = bt_meta t /\ bt_schema t' = true /\ bt_ch t' = bt_ch t /\
    m_weak (bt_data t') = m_weak (bt_data t) /\ m_weak_enabled (bt_data t') = m_weak_enabled (bt_data t).
Proof.
  intros Hsch Hl Hd Hb.
  destruct (lookup_some _ _ _ _ _ Hl) as (Hn & _ & _).
  destruct (slot_facts _ _ _ _ _ G _ _ _ Hn) as ((Hlen & _) & Hf & Hbd & _).
  pose proof (g_ready _ _ _ _ _ G) as Hr.
  assert (Hfa : first_mark (track_marks std gap3 ss) <= 16 * (dam_at std o + 4)) by (unfold idam_at, dam_at in *; clear - Hf; lia).
  pose proof (g_meta _ _ _ _ _ G) as Em.
  pose proof (find_track q (off_of offset) std gap3 ss) as Hfind. rewrite Hl in Hfind.
  pose proof (track_items_nth _ _ _ _ _ _ Hn) as Hitem.
  change (track_items std gap3 ss) with (md_items (meta_new (track_items std gap3 ss))) in Hfind, Hitem. rewrite <- Em in Hfind, Hitem.
  pose proof (write_step_gen t q offset d scope debug _ _ _ _ _ Hsch Hfind ltac:(congruence) Hitem
               (encode_data (bt_data t) B _ (dam_at std o) d (fs_id s) Hr Hfa)) as E.
  pose proof (slots_sec _ _ _ _ _ _ _ Hn) as Hsec.
  eexists. split; [exact E|]. cbn [bt_data bt_meta bt_schema bt_ch]. clear E Hfind Hitem.
  pose proof (write_holds _ _ _ _ _ _ _ _ _ (g_holds _ _ _ _ _ G) Hn Hd Hb) as Hh'.
  unfold write_codec. pose proof (write_cells_length (mfm_data (bt_data t)) (dam_at std o) d) as El2.
  set (l2 := write_cells (mfm_data (bt_data t)) (dam_at std o) d) in *. clearbody l2.
  split; [|split; [reflexivity|split; [reflexivity|split; [reflexivity|split; [reflexivity|split; reflexivity]]]]].
  constructor; cbn [bt_data bt_meta].
  - exact Hh'.
  - rewrite (track_marks_upd _ _ _ _ _ _ Hsec Hd). constructor.
    + apply mfm_wf_with_bits; [apply Hr|exact El2].
    + apply Hr.
    + apply Hr.
    + apply Hr.
    + apply Hh'.
    + apply Hh'.
  - apply sector_ok_upd; auto. apply G.
  - rewrite track_items_upd by auto. exact Em.
  - destruct (g_clock _ _ _ _ _ G) as [C1 C2 C3]. constructor; auto.
    change (mfm_len (with_bits (bt_data t) (ring_with (m_bits (bt_data t)) l2))) with (length l2). rewrite El2. exact C3.
Qed.

Lemma write_missing q offset d scope wd debug : bt_schema t = true ->
  lookup q (off_of offset) (track_slots std gap3 ss) = None ->
  bt_write_sector t q offset d scope wd debug =
    Ok (t, mkWrite true false false (flag_c q (off_of offset) (track_slots std gap3 ss)) (flag_ff q (off_of offset) (track_slots std gap3 ss))
             (flag_h q (off_of offset) (track_slots std gap3 ss))).
Proof.
  intros Hs Hl. unfold bt_write_sector. rewrite Hs. cbn [negb]. unfold scan_sector_element. rewrite Hs. cbn [obind].
  rewrite (g_meta _ _ _ _ _ G). cbn [meta_new md_items]. rewrite find_track, Hl. reflexivity.
Qed.
Lemma write_rejected q offset k o s d scope wd debug : bt_schema t = true ->
  lookup q (off_of offset) (track_slots std gap3 ss) = Some (k, (o, s)) ->
  wd = true \/ length d <> length (fs_data s) ->
  bt_write_sector t q offset d scope wd debug = Err ParameterError.
Proof.
  intros Hs Hl Hd. unfold bt_write_sector. rewrite Hs. cbn [negb]. unfold scan_sector_element. rewrite Hs. cbn [obind].
  rewrite (g_meta _ _ _ _ _ G). cbn [meta_new md_items]. rewrite find_track, Hl. cbn [andb].
  destruct (lookup_some _ _ _ _ _ Hl) as (Hn & _ & _).
  destruct (slot_facts _ _ _ _ _ G _ _ _ Hn) as ((Hlen & _) & _).
  destruct wd; [reflexivity|]. cbn [Bool.eqb negb]. destruct Hd as [Hd|Hd]; [discriminate|].
  rewrite <- Hlen. destruct (Nat.eqb_spec (length (fs_data s)) (length d)); [congruence|reflexivity].
Qed.
End Write.
