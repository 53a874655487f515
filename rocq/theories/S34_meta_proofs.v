(* S34_meta_proofs.v - the metadata scan of a track that satisfies `holds`. *)
From Verif Require Import Base Base_lemmas Chs_model BitRing_model BitRing_proofs Mfm_model Mfm_spec Mfm_proofs Marker_proofs Codec_lemmas
  Crc_model Crc16_proofs System34_model System34_spec Stream_proofs S34_layout_proofs S34_format_proofs S34_scan_proofs S34_clock_proofs TreeMap_proofs.
From Coq Require Import Lia.

(* ---- reading a track whose clock map is regular from position f on ---- *)
Record ready (m : Mfm) (B : list N) (f : nat) : Prop := mkReady {
  rd_wf : mfm_wf m;
  rd_weak : r_bits (m_weak m) <> [];
  rd_noweak : forall i, weak_at m i = false;
  rd_clk : forall i, f <= i -> Nat.even i = true -> clk m (i + 1) = false;
  rd_carries : carries (mfm_data m) B;
  rd_bytes : bytes_ok B = true }.

Lemma even16 b k : Nat.even (16 * b + 2 * k) = true.
Proof. rewrite Nat.even_add, !Nat.even_mul. reflexivity. Qed.
Lemma ready_phase m B f b n : ready m B f -> f <= 16 * b -> in_phase m (16 * b) n 0.
Proof.
  intros H Hf. left. split; auto. intros k Hk. right.
  apply (rd_clk _ _ _ H); [lia|]. replace (16 * k) with (2 * (8 * k)) by lia. apply even16.
Qed.
Lemma ready_steady m B f b n : ready m B f -> f <= 16 * b -> steady m (16 * b) n.
Proof. intros H Hf k Hk. right. apply (rd_clk _ _ _ H); [lia|]. apply even16. Qed.
Lemma ready_read rnd m B f b n : ready m B f -> f <= 16 * b -> b + n <= length B ->
  read_decoded_buf rnd m n (16 * b) = Ok (slice B b n).
Proof.
  intros H Hf Hl. rewrite (read_decoded_buf_spec rnd m (16 * b) n 0 (rd_wf _ _ _ H)).
  - rewrite Nat.add_0_r. rewrite (read_carries _ B); auto; apply H.
  - eapply ready_phase; eauto.
  - intros k _. apply (rd_noweak _ _ _ H).
Qed.
Lemma ready_not_empty m B f : ready m B f -> ring_is_empty (m_bits m) = false.
Proof.
  intros H. destruct (rd_wf _ _ _ H) as ((_ & _ & Hp) & _). unfold ring_is_empty.
  destruct (r_bits (m_bits m)); [cbn in Hp; lia|reflexivity].
Qed.
Lemma ready_seek m B f b : ready m B f -> f <= 16 * b -> mfm_seek_start m (16 * b) = Ok (with_cursor m (16 * b)).
Proof.
  intros H Hf. unfold mfm_seek_start. rewrite (ready_not_empty _ _ _ H).
  pose proof (steady_nudge m (16 * b) 1 0 (rd_wf _ _ _ H) (ready_steady m B f b 1 H Hf) ltac:(lia)) as E.
  rewrite Nat.mul_0_r, Nat.add_0_r in E. rewrite E. reflexivity.
Qed.
Lemma ready_mfm_read rnd m B f b n : ready m B f -> f <= 16 * b -> b + n <= length B ->
  mfm_read rnd n (with_cursor m (16 * b)) = Ok (slice B b n, with_cursor m (16 * b + 16 * n)).
Proof.
  intros H Hf Hl. unfold mfm_read. change (ring_is_empty (m_bits (with_cursor m (16 * b)))) with (ring_is_empty (m_bits m)).
  rewrite (ready_not_empty _ _ _ H).
  rewrite (mfm_read_loop_spec rnd m (rd_wf _ _ _ H) (rd_weak _ _ _ H)).
  - rewrite (read_carries _ B); auto; apply H.
  - eapply ready_steady; eauto.
  - intros k _. apply (rd_noweak _ _ _ H).
Qed.
Lemma ready_cursor m B f c : ready m B f -> ready (with_cursor m c) B f.
Proof. intros [A1 A2 A3 A4 A5 A6]. constructor; auto. Qed.

(* ---- the header and data fields ---- *)
Definition id_ok (i : DiskChsn) : Prop := bytes_ok [chsn_c i; chsn_h i; chsn_s i; chsn_n i] = true.
Lemma id_c_ok i : id_ok i -> (chsn_c i mod 256 = chsn_c i)%N.
Proof. unfold id_ok, bytes_ok, is_byte. cbn [forallb]. rewrite andb_true_iff. intros [H _]. apply N.ltb_lt in H. apply N.mod_small. exact H. Qed.
Lemma chsn_eta i : mkChsn (mkChs (chsn_c i) (chsn_h i) (chsn_s i)) (chsn_n i) = i.
Proof. destruct i as [[] ?]; reflexivity. Qed.

Lemma read_header_ok rnd m B f b i : ready m B f -> f <= 16 * b -> b + 10 <= length B -> id_ok i ->
  slice B b 10 = header_field i ->
  read_header rnd m (16 * b) = Ok (mkSid (chsn_c i) (chsn_h i) (chsn_s i) (chsn_n i) true).
Proof.
  intros H Hf Hl Hi Hs. unfold read_header. rewrite (ready_read rnd m B f b 10 H Hf Hl), Hs. cbn [obind].
  unfold header_field, with_crc. rewrite (id_c_ok i Hi). cbn [app be16].
  rewrite from_be16_be16, N.eqb_refl. reflexivity.
Qed.

Lemma s34_crc16_ok rnd m B f b d : ready m B f -> f <= 16 * b -> b + length d + 6 <= length B ->
  slice B b (length d + 6) = data_field d ->
  exists c, s34_crc16 rnd m (16 * b) (16 * b + MFM_MARKER_LEN + length d * MFM_BYTE_LEN) =
    Ok (crc_ibm_3740 ([0xA1; 0xA1; 0xA1; 0xFB]%N ++ d) None, crc_ibm_3740 ([0xA1; 0xA1; 0xA1; 0xFB]%N ++ d) None, with_cursor m c).
Proof.
  intros H Hf Hl Hs. unfold s34_crc16, MFM_MARKER_LEN, MFM_BYTE_LEN.
  destruct (Nat.ltb_spec (16 * b + 64 + length d * 16) (16 * b)); [lia|].
  assert (En : (16 * b + 64 + length d * 16 - 16 * b) / 16 = length d + 4).
  { replace (16 * b + 64 + length d * 16 - 16 * b) with ((length d + 4) * 16) by lia. apply Nat.div_mul. lia. }
  rewrite En. rewrite (ready_seek m B f b H Hf).
  replace (length d + 4 + 2) with (length d + 6) by lia.
  rewrite (ready_mfm_read rnd m B f b _ H Hf) by lia. rewrite Hs.
  exists (16 * b + 16 * (length d + 6)). unfold data_field, with_crc.
  set (body := [0xA1; 0xA1; 0xA1; 0xFB]%N ++ d). assert (Lb : length body = length d + 4) by (unfold body; cbn [length app]; lia).
  unfold oindex. rewrite nth_error_app2 by lia. rewrite (nth_error_app2 body) by lia.
  rewrite Lb. replace (length d + 4 - (length d + 4)) with 0 by lia. replace (length d + 4 + 1 - (length d + 4)) with 1 by lia.
  cbn [be16 nth_error obind]. rewrite from_be16_be16, firstn_app_exact by auto. reflexivity.
Qed.

(* ---- sorting an already sorted list ---- *)
Fixpoint nondecr {A} (key : A -> N) (b : N) (l : list A) : Prop :=
  match l with [] => True | x :: t => (b <= key x)%N /\ nondecr key (key x) t end.
Lemma insert_last {A} (key : A -> N) x l : (forall y, In y l -> (key y <= key x)%N) -> insert_by key x l = l ++ [x].
Proof.
  induction l as [|y l IH]; intros H; [reflexivity|]. cbn [insert_by app].
  destruct (N.ltb_spec (key x) (key y)) as [Hlt|_]; [pose proof (H y (or_introl eq_refl)); lia|].
  f_equal. apply IH. intros z Hz. apply H; right; auto.
Qed.
Lemma sort_sorted_aux {A} (key : A -> N) l : forall b acc, nondecr key b l -> (forall y, In y acc -> (key y <= b)%N) ->
  fold_left (fun acc x => insert_by key x acc) l acc = acc ++ l.
Proof.
  induction l as [|x l IH]; intros b acc Hs Hb; cbn [fold_left]; [rewrite app_nil_r; reflexivity|].
  destruct Hs as [H1 H2]. rewrite insert_last by (intros y Hy; specialize (Hb y Hy); lia).
  rewrite (IH (key x)); auto.
  - rewrite <- app_assoc. reflexivity.
  - intros y Hy. apply in_app_or in Hy as [Hy|[<-|[]]]; [specialize (Hb y Hy)|]; lia.
Qed.
Lemma sort_sorted {A} (key : A -> N) l : nondecr key 0 l -> stable_sort_by key l = l.
Proof. intros H. unfold stable_sort_by. rewrite (sort_sorted_aux key l 0 [] H); [reflexivity|intros y []]. Qed.

(* ---- the elements of a formatted track ---- *)
Definition sector_items (std : Standard) (x : nat * fsector) : list Inst :=
  let '(o, s) := x in
  let a := 16 * idam_at o in let d := 16 * dam_at std o in let i := fs_id s in
  [mkInst (ElMarker Idam) a (a + 64) (Some i) false;
   mkInst (ElHeader i false false) a d None false;
   mkInst (ElData i false false false) d (d + 64 + 16 * n_size i) (Some i) false;
   mkInst (ElMarker Dam) d (d + 64) (Some i) false].
Definition iam_items (std : Standard) : list Inst :=
  match iam_at std with
  | Some p => [mkInst (ElMarker Iam) (16 * p) (16 * p + 64) (Some (mkChsn (mkChs 0 0 0) 0)) false]
  | None => [] end.
Definition track_items (std : Standard) (gap3 : nat) (ss : list fsector) : list Inst :=
  map_last set_last (iam_items std ++ flat_map (sector_items std) (track_slots std gap3 ss)).

Lemma sid_size_n i v : sid_size (mkSid (chsn_c i) (chsn_h i) (chsn_s i) (chsn_n i) v) = n_size i.
Proof. reflexivity. Qed.

Lemma step_idam rnd elems last sid so m off nsid : last <> Some Idam -> read_header rnd m off = Ok nsid ->
  scan_step rnd (mkScanState elems last sid so m) (Idam, off) =
    Ok (mkScanState (elems ++ [mkInst (ElMarker Idam) off (off + 64) (Some (sid_chsn nsid)) false]) (Some Idam) nsid off m).
Proof.
  intros Hl Hr. unfold scan_step. cbn [ss_m ss_last ss_sid ss_elems ss_off].
  destruct last as [[]|]; try congruence; rewrite Hr; reflexivity.
Qed.
Lemma step_dam rnd elems sid so m off x rec calc m' :
  read_decoded_buf rnd m 4 off = Ok x ->
  s34_crc16 rnd m off (off + MFM_MARKER_LEN + sid_size sid * MFM_BYTE_LEN) = Ok (rec, calc, m') ->
  scan_step rnd (mkScanState elems (Some Idam) sid so m) (Dam, off) =
    Ok (mkScanState (elems ++ [mkInst (ElHeader (sid_chsn sid) (negb (sid_valid sid)) false) so off None false;
             mkInst (ElData (sid_chsn sid) (negb (sid_valid sid)) (negb (rec =? calc)%N) false) off
                    (off + MFM_MARKER_LEN + sid_size sid * MFM_BYTE_LEN) (Some (sid_chsn sid)) false;
             mkInst (ElMarker Dam) off (off + 64) (Some (sid_chsn sid)) false]) (Some Dam) sid off m').
Proof.
  intros Hx Hc. unfold scan_step. cbn [ss_m ss_last ss_sid ss_elems ss_off]. rewrite Hx. cbn [obind]. rewrite Hc. cbn [obind].
  rewrite <- app_assoc. reflexivity.
Qed.

Lemma scan_sectors rnd B f std gap3 : forall ss off elems last sid so m,
  ready m B f -> f <= 16 * idam_at off ->
  (forall i o s, nth_error (slots std gap3 off ss) i = Some (o, s) ->
     sector_ok s /\ o + 40 + gap2_len std + length (fs_data s) <= length B /\
     slice B (idam_at o) 10 = header_field (fs_id s) /\
     slice B (dam_at std o) (length (fs_data s) + 6) = data_field (fs_data s)) ->
  last <> Some Idam ->
  exists last' sid' so' c, last' <> Some Idam /\
  ofold (scan_step rnd) (scaled (a1_marks std (slots std gap3 off ss))) (mkScanState elems last sid so m) =
    Ok (mkScanState (elems ++ flat_map (sector_items std) (slots std gap3 off ss)) last' sid' so' (with_cursor m c)).
Proof.
  induction ss as [|s ss IH]; intros off elems last sid so m Hr Hf Hslot Hlast.
  - cbn [slots a1_marks flat_map scaled map ofold]. exists last, sid, so, (m_cursor m). split; auto.
    rewrite with_cursor_same, app_nil_r. reflexivity.
  - destruct (Hslot 0 off s eq_refl) as ((Hn & Hd & Hid) & Hl & Hh & Hdf).
    cbn [slots a1_marks flat_map app]. unfold scaled. cbn [map].
    fold (a1_marks std (slots std gap3 (off + sector_len std gap3 s) ss)).
    fold (scaled (a1_marks std (slots std gap3 (off + sector_len std gap3 s) ss))).
    assert (Hdam : f <= 16 * dam_at std off) by (unfold idam_at, dam_at in *; clear - Hf; lia).
    rewrite ofold_cons. rewrite (step_idam rnd _ _ _ _ _ _ _ Hlast (read_header_ok rnd m B f (idam_at off) (fs_id s) Hr Hf ltac:(unfold idam_at; clear - Hl; lia) Hid Hh)).
    cbn [obind]. rewrite ofold_cons.
    destruct (s34_crc16_ok rnd m B f (dam_at std off) (fs_data s) Hr Hdam ltac:(unfold dam_at; clear - Hl; lia) Hdf) as [c Ec].
    rewrite Hn, <- (sid_size_n (fs_id s) true) in Ec.
    rewrite (step_dam rnd _ _ _ _ _ _ _ _ _ (ready_read rnd m B f (dam_at std off) 4 Hr Hdam ltac:(unfold dam_at; clear - Hl; lia)) Ec).
    cbn [obind]. rewrite N.eqb_refl. cbn [negb sid_valid].
    destruct (IH (off + sector_len std gap3 s)
      ((elems ++ [mkInst (ElMarker Idam) (16 * idam_at off) (16 * idam_at off + 64) (Some (fs_id s)) false]) ++
        [mkInst (ElHeader (fs_id s) false false) (16 * idam_at off) (16 * dam_at std off) None false;
         mkInst (ElData (fs_id s) false false false) (16 * dam_at std off) (16 * dam_at std off + MFM_MARKER_LEN + n_size (fs_id s) * MFM_BYTE_LEN) (Some (fs_id s)) false;
         mkInst (ElMarker Dam) (16 * dam_at std off) (16 * dam_at std off + 64) (Some (fs_id s)) false])
      (Some Dam) (mkSid (chsn_c (fs_id s)) (chsn_h (fs_id s)) (chsn_s (fs_id s)) (chsn_n (fs_id s)) true) (16 * dam_at std off) (with_cursor m c))
      as (last' & sid' & so' & c' & H1 & H2).
    + apply ready_cursor; auto.
    + unfold idam_at, sector_len in *; clear - Hf; lia.
    + intros i o s' Hi. apply (Hslot (S i)). exact Hi.
    + discriminate.
    + exists last', sid', so', c'. split; auto. rewrite with_cursor_twice in H2. rewrite <- !app_assoc in H2.
      unfold sid_chsn. cbn [sid_c sid_h sid_s sid_b]. rewrite chsn_eta, sid_size_n. rewrite <- !app_assoc. rewrite H2.
      unfold MFM_MARKER_LEN, MFM_BYTE_LEN. cbn [sector_items app]. rewrite (Nat.mul_comm (n_size (fs_id s)) 16). reflexivity.
Qed.

Lemma slots_nondecr std gap3 ss : forall off b, (b <= N.of_nat (16 * idam_at off))%N ->
  nondecr (fun i => N.of_nat (i_start i)) b (flat_map (sector_items std) (slots std gap3 off ss)).
Proof.
  induction ss as [|s ss IH]; intros off b Hb; cbn [slots flat_map]; [exact I|].
  cbn [sector_items app nondecr i_start]. split; [exact Hb|]. split; [lia|].
  split; [unfold idam_at, dam_at; lia|]. split; [lia|]. apply IH. unfold idam_at, dam_at, sector_len. lia.
Qed.

Lemma scan_metadata_spec rnd std gap3 ss m B f : ready m B f -> holds std gap3 ss (mfm_data m) B -> Forall sector_ok ss ->
  f <= first_mark (track_marks std gap3 ss) ->
  exists c, scan_metadata rnd m (scaled (track_marks std gap3 ss)) = Ok (track_items std gap3 ss, with_cursor m c).
Proof.
  intros Hr Hh Hok Hf. unfold scan_metadata.
  assert (Hiam : forall m0, ofold (scan_step rnd) (scaled (match iam_at std with Some p => [(Iam, p)] | None => [] end))
                     (mkScanState [] None sid_default 0 m0) =
     Ok (mkScanState (iam_items std) (match iam_at std with Some _ => Some Iam | None => None end) sid_default
           (match iam_at std with Some p => 16 * p | None => 0 end) m0)).
  { intros m0. unfold iam_items. destruct (iam_at std); reflexivity. }
  assert (Eapp : scaled (track_marks std gap3 ss) = scaled (match iam_at std with Some p => [(Iam, p)] | None => [] end) ++
                    scaled (a1_marks std (track_slots std gap3 ss))).
  { rewrite track_marks_split. unfold scaled. apply map_app. }
  rewrite Eapp, ofold_app, Hiam. cbn [obind].
  destruct (match ss with [] => true | _ => false end) eqn:Ess.
  { destruct ss; [|discriminate]. cbn [track_slots slots a1_marks flat_map scaled map ofold obind ss_last ss_elems ss_m ss_sid].
    exists (m_cursor m). rewrite with_cursor_same. unfold track_items, iam_items. cbn [track_slots slots flat_map].
    destruct (iam_at std); reflexivity. }
  destruct (scan_sectors rnd B f std gap3 ss (length (preamble std)) (iam_items std)
     (match iam_at std with Some _ => Some Iam | None => None end) sid_default (match iam_at std with Some p => 16 * p | None => 0 end) m)
     as (last' & sid' & so' & c & H1 & H2); auto.
  - eapply Nat.le_trans; [exact Hf|]. destruct ss as [|s0 ss0]; [discriminate|].
    clear. destruct std; cbn [track_marks iam_at app first_mark track_slots slots flat_map]; unfold idam_at; rewrite ?preamble_length; lia.
  - intros i o s Hi. pose proof (slots_sec _ _ _ _ _ _ _ Hi) as Hs. split.
    { apply nth_error_In in Hs. rewrite Forall_forall in Hok. auto. }
    split; [apply (holds_slot _ _ _ _ _ Hh _ _ _ Hi)|]. split; [apply (h_header _ _ _ _ _ Hh _ _ _ Hi)|apply (h_data _ _ _ _ _ Hh _ _ _ Hi)].
  - destruct (iam_at std); discriminate.
  - unfold track_slots. rewrite H2. cbn [obind ss_last ss_elems ss_m ss_sid ss_off]. exists c.
    assert (Ematch : match last' with
      | Some Idam => (iam_items std ++ flat_map (sector_items std) (slots std gap3 (length (preamble std)) ss)) ++
                     [mkInst (ElHeader (sid_chsn sid') (sid_valid sid') true) so' (so' + 256) None false]
      | _ => iam_items std ++ flat_map (sector_items std) (slots std gap3 (length (preamble std)) ss) end =
      iam_items std ++ flat_map (sector_items std) (slots std gap3 (length (preamble std)) ss)).
    { destruct last' as [[]|]; congruence. }
    rewrite Ematch. clear Ematch. rewrite sort_sorted; [reflexivity|].
    unfold iam_items. destruct (iam_at std) as [p|] eqn:Ei.
    + cbn [app nondecr i_start]. split; [lia|]. apply slots_nondecr. rewrite preamble_length. unfold idam_at.
      clear - Ei. destruct std; cbn in Ei; try discriminate; injection Ei as <-; lia.
    + apply slots_nondecr. lia.
Qed.
