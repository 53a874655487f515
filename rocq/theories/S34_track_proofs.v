(* S34_track_proofs.v - a BitStreamTrack holding given sectors: format establishes it, writes keep it. *)
From Verif Require Import Base Base_lemmas Chs_model BitRing_model BitRing_proofs Mfm_model Mfm_spec Mfm_proofs Marker_proofs Codec_lemmas
  Crc_model Crc16_proofs Types_model System34_model System34_spec Stream_proofs S34_layout_proofs S34_format_proofs S34_scan_proofs S34_clock_proofs
  S34_meta_proofs BitStream_model TreeMap_proofs MetaSector_proofs.
From Coq Require Import Lia.

(* clock map left over from before: shorter than the track by less than a byte, never wraps to true *)
Record clock_fits (m : Mfm) : Prop := mkCF {
  cf_wrap : r_wrap (m_clock m) = length (r_bits (m_clock m));
  cf_wrapv : r_wrapv (m_clock m) = Some false;
  cf_len : (length (r_bits (m_clock m)) + 15) / 16 = (mfm_len m + 15) / 16 }.

Record good (std : Standard) (gap3 : nat) (ss : list fsector) (t : BitTrack) (B : list N) : Prop := mkGood {
  g_holds : holds std gap3 ss (mfm_data (bt_data t)) B;
  g_ready : ready (bt_data t) B (first_mark (track_marks std gap3 ss));
  g_ok : Forall sector_ok ss;
  g_meta : bt_meta t = meta_new (track_items std gap3 ss);
  g_clock : clock_fits (bt_data t) }.

Lemma track_marks_incr std gap3 ss : incr 4 1 (map snd (track_marks std gap3 ss)).
Proof.
  rewrite track_marks_split, map_app.
  pose proof (slots_incr_marks std gap3 ss (length (preamble std))) as Hi. fold (track_slots std gap3 ss) in Hi.
  rewrite preamble_length in Hi. destruct std; cbn [iam_at map app snd].
  - constructor; [lia|]. eapply incr_weaken; [exact Hi|lia].
  - constructor; [lia|]. eapply incr_weaken; [exact Hi|lia].
  - eapply incr_weaken; [exact Hi|lia].
Qed.
Lemma marks_in_track std gap3 ss l B x : holds std gap3 ss l B -> In x (map snd (track_marks std gap3 ss)) -> x + 4 <= length B.
Proof.
  intros H Hin. apply in_map_iff in Hin as ([k o] & <- & Hin). destruct (holds_mark_win _ _ _ _ _ H _ _ Hin) as [Hb _].
  rewrite (holds_len _ _ _ _ _ H) in Hb. cbn [snd]. lia.
Qed.

(* the common tail of format, new_mfm and rescan *)
Lemma clock_and_meta rnd std gap3 ss m B :
  holds std gap3 ss (mfm_data m) B -> Forall sector_ok ss ->
  plain (m_bits m) -> plain (m_weak m) -> (forall i, weak_at m i = false) ->
  clock_fits m ->
  exists cm c, create_clock_map (scaled (track_marks std gap3 ss)) (r_bits (m_clock m)) = Ok cm /\
    length cm = length (r_bits (m_clock m)) /\
    scan_metadata rnd (set_clock_bits m cm) (scaled (track_marks std gap3 ss)) =
      Ok (track_items std gap3 ss, with_cursor (set_clock_bits m cm) c) /\
    ready (set_clock_bits m cm) B (first_mark (track_marks std gap3 ss)) /\
    clock_fits (set_clock_bits m cm).
Proof.
  intros Hh Hok Hp Hpw Hw [C1 C2 C3].
  pose proof (holds_len _ _ _ _ _ Hh) as Hlen. pose proof (h_fits _ _ _ _ _ Hh) as [Hf _].
  set (Lc := length (r_bits (m_clock m))) in *.
  assert (HLc : 16 * length B < Lc + 16).
  { change (mfm_len m) with (length (mfm_data m)) in C3. rewrite Hlen in C3.
    replace ((16 * length B + 15) / 16) with (length B) in C3.
    - pose proof (Nat.mul_div_le (Lc + 15) 16 ltac:(lia)). lia.
    - replace (16 * length B + 15) with (15 + length B * 16) by lia. rewrite Nat.div_add by lia. change (15 / 16) with 0. lia. }
  destruct (create_clock_map_spec (track_marks std gap3 ss) (r_bits (m_clock m))) as (cm & E & El & Hcm).
  { apply track_marks_incr. }
  { intros x Hx. pose proof (marks_in_track _ _ _ _ _ _ Hh Hx). fold Lc. clear - H HLc. lia. }
  { fold Lc. clear - HLc Hf. lia. }
  fold Lc in El, Hcm.
  assert (Hr : ready (set_clock_bits m cm) B (first_mark (track_marks std gap3 ss))).
  { constructor.
    - unfold mfm_wf, set_clock_bits. cbn [with_clock m_bits m_clock m_weak r_bits r_wrap]. split; [auto|]. split; [|split; [|auto]].
      + rewrite El. clear - HLc Hf. lia.
      + rewrite El. exact C1.
    - destruct Hpw as (_ & _ & Hpw). cbn. intros E0. rewrite E0 in Hpw. cbn in Hpw. lia.
    - exact Hw.
    - intros i Hi Hev. unfold clk, set_clock_bits. cbn [with_clock m_clock r_bits r_wrapv]. rewrite C2, El.
      destruct (Nat.ltb_spec (i + 1) Lc); auto. apply Hcm; [lia|].
      rewrite Nat.add_1_r, Nat.even_succ. rewrite <- Nat.negb_even, Hev. reflexivity.
    - apply Hh.
    - apply Hh. }
  destruct (scan_metadata_spec rnd std gap3 ss (set_clock_bits m cm) B _ Hr Hh Hok (le_n _)) as [c Ec].
  exists cm, c. split; [exact E|]. split; [exact El|]. split; [exact Ec|]. split; [exact Hr|].
  constructor; cbn; rewrite ?El; auto.
Qed.

Lemma ready_ranges m B f rs : ready m B f -> ready (set_data_ranges m rs) B f.
Proof. intros [A1 A2 A3 A4 A5 A6]. constructor; auto. Qed.
Lemma ready_ranges_opt m B f md : ready m B f -> ready (match data_ranges md with [] => m | rs => set_data_ranges m rs end) B f.
Proof. intros H. destruct (data_ranges md); auto. apply ready_ranges; auto. Qed.
Lemma bits_ranges_opt m md : mfm_data (match data_ranges md with [] => m | rs => set_data_ranges m rs end) = mfm_data m.
Proof. destruct (data_ranges md); reflexivity. Qed.
Lemma clock_ranges_opt m md : clock_fits m -> clock_fits (match data_ranges md with [] => m | rs => set_data_ranges m rs end).
Proof. intros H. destruct (data_ranges md); auto. destruct H; constructor; auto. Qed.

(* a track that can be formatted: a codec with a clock map and a weak bit mask without weak bits *)
Record formattable (t : BitTrack) : Prop := mkFmt {
  f_bits : plain (m_bits (bt_data t));
  f_weak : plain (m_weak (bt_data t));
  f_noweak : m_weak_enabled (bt_data t) = false \/ forall i, circ (r_bits (m_weak (bt_data t))) i = false;
  f_clock : clock_fits (bt_data t) }.
Lemma noweak_at m : m_weak_enabled m = false \/ (forall i, circ (r_bits (m_weak m)) i = false) -> forall i, weak_at m i = false.
Proof. unfold weak_at. intros [->|H] i; [reflexivity|]. rewrite H, andb_false_r. reflexivity. Qed.

Lemma fill_ok pat k n : bytes_ok pat = true -> pat <> [] -> bytes_ok (fill pat k n) = true.
Proof.
  rewrite !bytes_ok_Forall. intros H Hp. apply Forall_forall. intros x Hx. unfold fill in Hx. apply in_map_iff in Hx as (i & <- & _).
  rewrite Forall_forall in H. apply H. apply nth_In. apply mod_lt. destruct pat; [congruence|cbn; lia].
Qed.
Lemma filled_ok pat : bytes_ok pat = true -> pat <> [] -> forall ids k, Forall id_ok ids -> Forall sector_ok (filled pat k ids).
Proof.
  intros H Hp. induction ids as [|i ids IH]; intros k Hi; cbn [filled]; constructor; inversion Hi; subst.
  - split; [apply fill_length|]. split; [apply fill_ok; auto|auto].
  - apply IH; auto.
Qed.

Lemma format_good rnd t std ids pat gap3 :
  formattable t -> pat <> [] -> bytes_ok pat = true -> Forall id_ok ids ->
  let ss := filled pat 0 ids in let T := (mfm_len (bt_data t) + 15) / 16 in
  fits std gap3 T ss ->
  exists t', bt_format rnd t std ids pat gap3 = Ok t' /\ good std gap3 ss t' (final_bytes std gap3 T ss) /\
     bt_schema t' = bt_schema t /\ bt_ch t' = bt_ch t /\
     mfm_data (bt_data t') = write_marks (mfm false (bits_of (track_layout std gap3 T ss))) (track_marks std gap3 ss) /\
     m_weak (bt_data t') = m_weak (bt_data t) /\ m_weak_enabled (bt_data t') = m_weak_enabled (bt_data t).
Proof.
  intros [F1 F2 F3 F4] Hp Hpo Hids ss T Hfit. unfold bt_format.
  pose proof (filled_ok pat Hpo Hp ids 0 Hids) as Hok. fold ss in Hok.
  rewrite format_bytes_spec by auto. fold T ss. cbn [obind].
  assert (HT : length (track_layout std gap3 T ss) = T) by (apply track_layout_length; apply Hfit).
  rewrite firstn_all2 by (rewrite HT; apply le_n). rewrite mfm_encode_spec.
  set (l0 := mfm false (bits_of (track_layout std gap3 T ss))).
  assert (Hl0 : length l0 = 16 * T) by (unfold l0; rewrite mfm_length, bits_of_length, HT; lia).
  assert (Hpl : plain (m_bits (mfm_replace (bt_data t) l0))).
  { cbn. apply plain_from. intros E. rewrite E in Hl0. destruct Hfit as [Hf _]. cbn in Hl0. lia. }
  rewrite set_track_markers_spec by auto. cbn [obind].
  change (mfm_data (mfm_replace (bt_data t) l0)) with l0.
  pose proof (format_holds std gap3 T ss Hok Hfit) as Hh. fold l0 in Hh.
  set (l1 := write_marks l0 (track_marks std gap3 ss)) in *.
  set (m1 := with_bits (mfm_replace (bt_data t) l0) (ring_with (m_bits (mfm_replace (bt_data t) l0)) l1)).
  assert (Hl1 : length l1 = length l0).
  { rewrite (holds_len _ _ _ _ _ Hh), Hl0. unfold final_bytes. destruct (iam_at std) eqn:Ei; [|lia]. rewrite splice_length; [lia|].
    cbn [mark_bytes length]. destruct Hfit as [Hf _]. clear - Ei Hf HT. destruct std; cbn in Ei; try discriminate; injection Ei as <-; lia. }
  assert (Hpl1 : plain (m_bits m1)) by (apply plain_with; auto).
  rewrite (scan_markers_spec std gap3 ss m1 (final_bytes std gap3 T ss) Hpl1 Hh). cbn [obind].
  assert (Hcf : clock_fits m1).
  { destruct F4 as [C1 C2 C3]. constructor; auto.
    change (mfm_len m1) with (length l1). change (m_clock m1) with (m_clock (bt_data t)). rewrite Hl1, Hl0, C3. fold T.
    replace (16 * T + 15) with (15 + T * 16) by (clear; lia). rewrite Nat.div_add by (clear; lia). reflexivity. }
  destruct (clock_and_meta rnd std gap3 ss m1 (final_bytes std gap3 T ss) Hh Hok Hpl1 F2 (noweak_at m1 F3) Hcf)
    as (cm & c & E1 & E2 & E3 & E4 & E5).
  rewrite E1. cbn [obind]. rewrite E3. cbn [obind].
  eexists. split; [reflexivity|]. cbn [bt_data bt_meta bt_schema bt_ch]. split; [|split; [reflexivity|split; [reflexivity|split; [|split]]]].
  - constructor; cbn [bt_data bt_meta]; auto.
    + rewrite bits_ranges_opt. exact Hh.
    + apply ready_ranges_opt, ready_cursor. exact E4.
    + apply clock_ranges_opt. destruct E5; constructor; auto.
  - rewrite bits_ranges_opt. reflexivity.
  - destruct (data_ranges (meta_new (track_items std gap3 ss))); reflexivity.
  - destruct (data_ranges (meta_new (track_items std gap3 ss))); reflexivity.
Qed.

(* ---- the element list ---- *)
Definition plain_items (std : Standard) (gap3 : nat) (ss : list fsector) : list Inst :=
  iam_items std ++ flat_map (sector_items std) (track_slots std gap3 ss).
Lemma map_last_snoc {A} (f : A -> A) l x : map_last f (l ++ [x]) = l ++ [f x].
Proof. unfold map_last. rewrite rev_unit. cbn [rev]. rewrite rev_involutive. reflexivity. Qed.
Lemma map_last_nil {A} (f : A -> A) : map_last f [] = []. Proof. reflexivity. Qed.
Lemma map_last_flat {A C} (f : A -> A) (g : A -> list C) l : (forall x, g (f x) = g x) -> flat_map g (map_last f l) = flat_map g l.
Proof.
  intros H. induction l as [|x l _] using rev_ind; [reflexivity|]. rewrite map_last_snoc, !flat_map_app. cbn [flat_map]. rewrite H. reflexivity.
Qed.
Lemma map_last_length {A} (f : A -> A) l : length (map_last f l) = length l.
Proof. induction l as [|x l _] using rev_ind; [reflexivity|]. rewrite map_last_snoc, !app_length. reflexivity. Qed.

Lemma slots_last_marker std gap3 ss : forall off, ss <> [] ->
  exists l' a b c, flat_map (sector_items std) (slots std gap3 off ss) = l' ++ [mkInst (ElMarker Dam) a b c false].
Proof.
  induction ss as [|s ss IH]; intros off Hne; [congruence|]. cbn [slots flat_map].
  destruct ss as [|s2 ss2].
  - cbn [slots flat_map]. rewrite app_nil_r. cbn [sector_items]. do 4 eexists.
    match goal with |- [?x; ?y; ?z; ?w] = _ => change [x; y; z; w] with ([x; y; z] ++ [w]) end. reflexivity.
  - destruct (IH (off + sector_len std gap3 s) ltac:(congruence)) as (l' & a & b & c & E). rewrite E.
    exists (sector_items std (off, s) ++ l'), a, b, c. rewrite app_assoc. reflexivity.
Qed.
Lemma plain_items_last std gap3 ss : plain_items std gap3 ss = [] \/
  exists l' k a b c, plain_items std gap3 ss = l' ++ [mkInst (ElMarker k) a b c false].
Proof.
  unfold plain_items. destruct ss as [|s ss].
  - cbn [track_slots slots flat_map]. rewrite app_nil_r. unfold iam_items. destruct (iam_at std); auto. right.
    exists []. do 4 eexists. reflexivity.
  - right. destruct (slots_last_marker std gap3 (s :: ss) (length (preamble std)) ltac:(congruence)) as (l' & a & b & c & E).
    unfold track_slots. rewrite E. exists (iam_items std ++ l'), Dam, a, b, c. rewrite app_assoc. reflexivity.
Qed.
Lemma items_ids std gap3 ss : find_sector_ids (track_items std gap3 ss) = map fs_id ss.
Proof.
  unfold find_sector_ids, track_items. rewrite map_last_flat by reflexivity. rewrite flat_map_app.
  assert (E : flat_map (fun i => match i_elem i with ElHeader c _ _ => [c] | _ => [] end) (iam_items std) = []).
  { unfold iam_items. destruct (iam_at std); reflexivity. }
  rewrite E. cbn [app]. unfold track_slots. generalize (length (preamble std)).
  induction ss as [|s ss IH]; intros off; [reflexivity|]. cbn [slots flat_map sector_items app i_elem map]. f_equal. apply IH.
Qed.
Lemma items_valid_ids std gap3 ss : find_valid_sector_ids (track_items std gap3 ss) = map fs_id ss.
Proof.
  unfold find_valid_sector_ids, track_items. rewrite map_last_flat by reflexivity. rewrite flat_map_app.
  assert (E : flat_map (fun i => match i_elem i with ElHeader c false _ => [c] | _ => [] end) (iam_items std) = []).
  { unfold iam_items. destruct (iam_at std); reflexivity. }
  rewrite E. cbn [app]. unfold track_slots. generalize (length (preamble std)).
  induction ss as [|s ss IH]; intros off; [reflexivity|]. cbn [slots flat_map sector_items app i_elem map]. f_equal. apply IH.
Qed.
Lemma items_sector_list std gap3 ss : meta_sector_list (meta_new (track_items std gap3 ss)) =
  map (fun s => mkEntry (fs_id s) (mkAttr false false false false)) ss.
Proof.
  unfold meta_sector_list, meta_new, track_items. cbn [md_items]. rewrite map_last_flat by reflexivity. rewrite flat_map_app.
  assert (E : flat_map (fun i => match i_elem i with ElData c ae de del => [mkEntry c (mkAttr ae de del false)] | _ => [] end) (iam_items std) = []).
  { unfold iam_items. destruct (iam_at std); reflexivity. }
  rewrite E. cbn [app]. unfold track_slots. generalize (length (preamble std)).
  induction ss as [|s ss IH]; intros off; [reflexivity|]. cbn [slots flat_map sector_items app i_elem map]. f_equal. apply IH.
Qed.

(* position of the data element of sector i *)
Definition data_index (std : Standard) (i : nat) : nat := length (iam_items std) + 4 * i + 2.
Definition data_item (std : Standard) (o : nat) (id : DiskChsn) : Inst :=
  mkInst (ElData id false false false) (16 * dam_at std o) (16 * dam_at std o + 64 + 16 * n_size id) (Some id) false.
Lemma slots_items_nth std gap3 ss : forall off i o s, nth_error (slots std gap3 off ss) i = Some (o, s) ->
  nth_error (flat_map (sector_items std) (slots std gap3 off ss)) (4 * i + 2) = Some (data_item std o (fs_id s)).
Proof.
  induction ss as [|x ss IH]; intros off [|i] o s H; cbn [slots nth_error] in H; try discriminate; cbn [slots flat_map].
  - injection H as <- <-. reflexivity.
  - rewrite nth_error_app2 by (cbn [sector_items length]; lia). cbn [sector_items length].
    replace (4 * S i + 2 - 4) with (4 * i + 2) by lia. apply (IH _ _ _ _ H).
Qed.
Lemma plain_items_nth std gap3 ss i o s : nth_error (track_slots std gap3 ss) i = Some (o, s) ->
  nth_error (plain_items std gap3 ss) (data_index std i) = Some (data_item std o (fs_id s)).
Proof.
  intros H. unfold plain_items, data_index. rewrite nth_error_app2 by lia.
  replace (length (iam_items std) + 4 * i + 2 - length (iam_items std)) with (4 * i + 2) by lia. eapply slots_items_nth; eauto.
Qed.
Lemma track_items_nth std gap3 ss i o s : nth_error (track_slots std gap3 ss) i = Some (o, s) ->
  nth_error (track_items std gap3 ss) (data_index std i) = Some (data_item std o (fs_id s)).
Proof.
  intros H. apply plain_items_nth in H. unfold track_items. fold (plain_items std gap3 ss).
  destruct (plain_items_last std gap3 ss) as [E|(l' & k & a & b & c & E)]; rewrite E in *.
  - rewrite map_last_nil. exact H.
  - rewrite map_last_snoc. destruct (Nat.lt_ge_cases (data_index std i) (length l')) as [Hlt|Hge].
    + rewrite nth_error_app1 in * by auto. exact H.
    + exfalso. rewrite nth_error_app2 in H by auto. destruct (data_index std i - length l') as [|q]; [discriminate H|].
      destruct q; discriminate H.
Qed.

Lemma rescan_good rnd std gap3 ss t B : good std gap3 ss t B -> ss <> [] ->
  exists t', bt_rescan rnd t = Ok t' /\ good std gap3 ss t' B /\ bt_schema t' = bt_schema t /\
     mfm_data (bt_data t') = mfm_data (bt_data t) /\ bt_meta t' = bt_meta t.
Proof.
  intros [G1 G2 G3 G4 G5] Hne. unfold bt_rescan.
  pose proof (rd_wf _ _ _ G2) as (W1 & W2 & W3 & W4).
  assert (Hpw : plain (m_weak (bt_data t))) by (destruct W4 as [W4|W4]; auto; elim (rd_weak _ _ _ G2 W4)).
  rewrite (scan_markers_spec std gap3 ss _ B W1 G1). cbn [obind].
  destruct (clock_and_meta rnd std gap3 ss (bt_data t) B G1 G3 W1 Hpw (rd_noweak _ _ _ G2) G5) as (cm & c & E1 & E2 & E3 & E4 & E5).
  assert (Em : scaled (track_marks std gap3 ss) <> []).
  { destruct ss; [congruence|]. destruct std; discriminate. }
  destruct (scaled (track_marks std gap3 ss)) as [|mk0 mks] eqn:Emk; [congruence|]. rewrite E1. cbn [obind]. rewrite E3. cbn [obind].
  assert (Ev : md_valid_ids (meta_new (track_items std gap3 ss)) <> []).
  { cbn [meta_new md_valid_ids]. rewrite items_valid_ids. destruct ss; [congruence|discriminate]. }
  destruct (md_valid_ids (meta_new (track_items std gap3 ss))) eqn:Evv; [congruence|].
  eexists. split; [reflexivity|]. cbn [bt_data bt_meta bt_schema]. rewrite bits_ranges_opt. split; [|auto].
  constructor; cbn [bt_data bt_meta]; auto.
  - rewrite bits_ranges_opt. exact G1.
  - apply ready_ranges_opt, ready_cursor. exact E4.
  - apply clock_ranges_opt. destruct E5; constructor; auto.
Qed.
