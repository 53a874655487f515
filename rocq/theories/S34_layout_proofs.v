(* S34_layout_proofs.v - format_track_as_bytes produces the layout of System34_spec. *)
From Verif Require Import Base Base_lemmas Chs_model BitRing_proofs Mfm_model Crc_model Crc16_proofs System34_model System34_spec.

Lemma gap2_spec std : gap2 std = gap2_len std. Proof. destruct std; reflexivity. Qed.
Lemma with_crc_length l : length (with_crc l) = length l + 2.
Proof. unfold with_crc; rewrite app_length; reflexivity. Qed.
Lemma header_field_length i : length (header_field i) = 10. Proof. reflexivity. Qed.
Lemma data_field_length d : length (data_field d) = length d + 6.
Proof. unfold data_field. rewrite with_crc_length, app_length. cbn [length]. lia. Qed.
Lemma sector_bytes_length std gap3 s : length (sector_bytes std gap3 s) = sector_len std gap3 s.
Proof.
  unfold sector_bytes, sector_len. rewrite !app_length, !repeat_length, header_field_length, data_field_length. lia.
Qed.
Lemma preamble_length std : length (preamble std) = match std with SIso => 32 | _ => 92 end.
Proof. destruct std; reflexivity. Qed.

(* ---- the fill pattern ---- *)
Lemma fill_length pat k n : length (fill pat k n) = n.
Proof. unfold fill; rewrite map_length, seq_length; reflexivity. Qed.
Lemma fill_app pat k a b : fill pat k (a + b) = fill pat k a ++ fill pat (k + a) b.
Proof.
  unfold fill. rewrite seq_app, map_app. f_equal. cbn [plus].
  rewrite (Mfm_proofs.map_seq_shift _ a). apply map_ext. intros i. do 2 f_equal. lia.
Qed.
Lemma fill_mod pat k n : pat <> [] -> fill pat (k mod length pat) n = fill pat k n.
Proof.
  intros H. unfold fill. apply map_ext. intros i. f_equal. rewrite Nat.add_mod_idemp_l; auto.
  destruct pat; [congruence|cbn; lia].
Qed.
Lemma fill_slice pat k n : k + n <= length pat -> fill pat k n = slice pat k n.
Proof.
  intros H. apply list_eq_nth_error. intros j. unfold fill, slice.
  rewrite nth_error_map_seq, nth_error_firstn, nth_error_skipn. destruct (Nat.ltb_spec j n); auto.
  cbn [plus]. rewrite Nat.mod_small by lia. rewrite (nth_error_nth' pat 0%N) by lia. reflexivity.
Qed.

Lemma fill_loop_spec pat size : pat <> [] -> forall fuel buf cur,
  cur < length pat -> length buf <= size -> size - length buf <= fuel ->
  fill_loop fuel size pat buf cur =
    Ok (buf ++ fill pat cur (size - length buf), (cur + (size - length buf)) mod length pat).
Proof.
  intros Hp. assert (Hp0 : length pat <> 0) by (destruct pat; [congruence|cbn; lia]).
  induction fuel as [|f IH]; intros buf cur Hc Hb Hf; cbn [fill_loop].
  - assert (E : length buf = size) by lia. rewrite E, Nat.ltb_irrefl, Nat.sub_diag, Nat.add_0_r.
    rewrite Nat.mod_small by lia. unfold fill; cbn. rewrite app_nil_r. reflexivity.
  - destruct (Nat.ltb_spec (length buf) size) as [Hl|Hl]; cycle 1.
    { assert (E : length buf = size) by lia. rewrite E, Nat.sub_diag, Nat.add_0_r.
      rewrite Nat.mod_small by lia. unfold fill; cbn. rewrite app_nil_r. reflexivity. }
    destruct (Nat.ltb_spec (length pat) cur); [lia|].
    set (remain := size - length buf).
    set (copy := if cur + remain <=? length pat then slice pat cur remain else skipn cur pat).
    set (n := Nat.min remain (length pat - cur)).
    assert (Hn : 1 <= n <= remain) by lia.
    assert (Ec : copy = fill pat cur n).
    { unfold copy. destruct (Nat.leb_spec (cur + remain) (length pat)).
      - replace n with remain by lia. rewrite fill_slice by auto. reflexivity.
      - replace n with (length pat - cur) by lia. rewrite fill_slice by lia. unfold slice.
        rewrite firstn_all2 by (rewrite skipn_length; lia). reflexivity. }
    clearbody copy. subst copy. destruct (length pat) as [|p] eqn:Ep; [lia|]. rewrite <- Ep in *.
    assert (Hm : (cur + n) mod length pat < length pat) by (apply mod_lt; lia).
    rewrite IH by (rewrite ?app_length, ?fill_length; try exact Hm; lia).
    rewrite app_length, fill_length. clear Hm.
    replace (size - (length buf + n)) with (remain - n) by lia.
    rewrite <- app_assoc. rewrite fill_mod, <- fill_app by auto. replace (n + (remain - n)) with remain by lia.
    f_equal. f_equal. rewrite Nat.add_mod_idemp_l by lia. f_equal. lia.
Qed.

Lemma fill_single b k n : fill [b] k n = repeat b n.
Proof.
  unfold fill. change (length [b]) with 1.
  transitivity (map (fun _ : nat => b) (seq 0 n)).
  { apply map_ext. intros i. rewrite Nat.mod_1_r. reflexivity. }
  generalize 0. induction n as [|n IH]; intros q; [reflexivity|]. cbn [seq map repeat]. f_equal. apply IH.
Qed.

(* ---- one sector ---- *)
Lemma skipn_app_len {A} (a b : list A) : skipn (length a) (a ++ b) = b.
Proof. apply skipn_app_exact; reflexivity. Qed.

Lemma data_step pat id k cur bytes : pat <> [] -> cur = k mod length pat ->
  match pat with
  | [b] => Ok (bytes ++ repeat b (n_size id), cur)
  | _ => let! (sb, cur) := fill_loop (n_size id) (n_size id) pat [] cur in Ok (bytes ++ sb, cur)
  end = Ok (bytes ++ fill pat k (n_size id), (k + n_size id) mod length pat).
Proof.
  intros Hp Hc.
  assert (G : (let! (sb, cur) := fill_loop (n_size id) (n_size id) pat [] cur in Ok (bytes ++ sb, cur))
              = Ok (bytes ++ fill pat k (n_size id), (k + n_size id) mod length pat)).
  { rewrite (fill_loop_spec pat); auto; [| |cbn; lia|cbn; lia].
    - cbn [length obind]. rewrite Nat.sub_0_r. cbn [app]. subst cur. rewrite fill_mod by auto.
      rewrite Nat.add_mod_idemp_l by (destruct pat; [congruence|cbn; lia]). reflexivity.
    - subst cur. apply mod_lt. destruct pat; [congruence|cbn; lia]. }
  destruct pat as [|b [|b2 pat]]; [congruence| |exact G].
  rewrite fill_single. cbn [length] in *. rewrite Nat.mod_1_r in *. subst cur. reflexivity.
Qed.

Lemma format_sector_spec std pat gap3 bytes marks k id : pat <> [] ->
  format_sector std pat gap3 (bytes, marks, k mod length pat) id =
    Ok (bytes ++ sector_bytes std gap3 (mkFS id (fill pat k (n_size id))),
        marks ++ [(Idam, idam_at (length bytes)); (Dam, dam_at std (length bytes))],
        (k + n_size id) mod length pat).
Proof.
  intros Hp. unfold format_sector. 
  set (b1 := bytes ++ repeat SYNC_BYTE SYNC_LEN).
  set (b2 := (b1 ++ IDAM_MARKER_BYTES) ++ [as_u8 (chsn_c id); chsn_h id; chsn_s id; chsn_n id]).
  assert (E2 : skipn (length b1) b2 = [0xA1; 0xA1; 0xA1; 0xFE]%N ++ [(chsn_c id mod 256)%N; chsn_h id; chsn_s id; chsn_n id]).
  { unfold b2. rewrite <- app_assoc, skipn_app_len. reflexivity. }
  rewrite E2.
  set (b3 := ((b2 ++ be16 _) ++ repeat GAP_BYTE (gap2 std)) ++ repeat SYNC_BYTE SYNC_LEN).
  assert (E3 : b3 = bytes ++ (repeat 0%N 12 ++ header_field id ++ repeat 0x4E%N (gap2_len std) ++ repeat 0%N 12)).
  { unfold b3, b2, b1, header_field, with_crc. rewrite gap2_spec. rewrite <- !app_assoc. reflexivity. }
  rewrite (data_step pat id k) by auto. cbn [obind].
  replace (skipn (length b3) ((b3 ++ DAM_MARKER_BYTES) ++ fill pat k (n_size id)))
    with ([0xA1; 0xA1; 0xA1; 0xFB]%N ++ fill pat k (n_size id)).
  2:{ rewrite <- app_assoc, skipn_app_len. reflexivity. }
  f_equal. f_equal. f_equal.
  - rewrite E3. unfold sector_bytes. cbn [fs_id fs_data]. unfold data_field, with_crc. rewrite <- !app_assoc. reflexivity.
  - rewrite <- app_assoc. cbn [app]. f_equal. f_equal; [|f_equal]; f_equal.
    + unfold b1, idam_at. rewrite app_length, repeat_length. reflexivity.
    + rewrite E3. unfold dam_at. rewrite !app_length, !repeat_length, header_field_length. lia.
Qed.

Lemma format_sectors_spec std pat gap3 : pat <> [] -> forall ids bytes marks k,
  exists cur, ofold (format_sector std pat gap3) ids (bytes, marks, k mod length pat) =
    Ok (bytes ++ flat_map (sector_bytes std gap3) (filled pat k ids),
        marks ++ flat_map (fun '(o, s) => [(Idam, idam_at o); (Dam, dam_at std o)])
                   (slots std gap3 (length bytes) (filled pat k ids)), cur).
Proof.
  intros Hp. induction ids as [|id ids IH]; intros bytes marks k; cbn [ofold filled flat_map slots].
  - exists (k mod length pat). rewrite !app_nil_r. reflexivity.
  - rewrite format_sector_spec by auto. cbn [obind].
    destruct (IH (bytes ++ sector_bytes std gap3 (mkFS id (fill pat k (n_size id))))
                 (marks ++ [(Idam, idam_at (length bytes)); (Dam, dam_at std (length bytes))]) (k + n_size id)) as [cur E].
    exists cur. rewrite E. rewrite app_length, sector_bytes_length, <- !app_assoc. reflexivity.
Qed.

Lemma format_bytes_spec std ct ids pat gap3 : pat <> [] ->
  format_track_as_bytes std ct ids pat gap3 =
    Ok (firstn ((ct + 15) / 16) (track_layout std gap3 ((ct + 15) / 16) (filled pat 0 ids)),
        track_marks std gap3 (filled pat 0 ids)).
Proof.
  intros Hp.
  set (init := match std with
        | SIbm | SPerpendicular =>
            let b := repeat GAP_BYTE IBM_GAP4A ++ repeat SYNC_BYTE SYNC_LEN in (b, [(Iam, length b)], 0)
        | SIso => (repeat GAP_BYTE ISO_GAP1, [], 0)
        end : fmt_state).
  assert (E0 : format_track_as_bytes std ct ids pat gap3 =
    let! (bytes, markers, _) := ofold (format_sector std pat gap3) ids init in
    Ok (firstn ((ct + MFM_BYTE_LEN - 1) / MFM_BYTE_LEN)
          (bytes ++ repeat GAP_BYTE ((ct + MFM_BYTE_LEN - 1) / MFM_BYTE_LEN - length bytes)), markers)).
  { unfold format_track_as_bytes. destruct pat; [congruence|reflexivity]. }
  rewrite E0. clear E0.
  replace (ct + MFM_BYTE_LEN - 1) with (ct + 15) by (unfold MFM_BYTE_LEN; lia). unfold MFM_BYTE_LEN.
  assert (Z0 : 0 mod length pat = 0) by (apply Nat.mod_0_l; destruct pat; [congruence|cbn; lia]).
  assert (Ei : init = (preamble std, match iam_at std with Some p => [(Iam, p)] | None => [] end, 0)) by (destruct std; reflexivity).
  destruct (format_sectors_spec std pat gap3 Hp ids (preamble std) (match iam_at std with Some p => [(Iam, p)] | None => [] end) 0) as [cur E].
  rewrite Z0 in E. rewrite Ei. unfold fmt_state, MarkerItem in *. rewrite E. reflexivity.
Qed.

Lemma filled_ids pat k ids : map fs_id (filled pat k ids) = ids.
Proof. revert k; induction ids as [|i t IH]; intros k; cbn; f_equal; auto. Qed.
Lemma layout_length std gap3 ss :
  length (layout std gap3 ss) = length (preamble std) + list_sum (map (sector_len std gap3) ss).
Proof.
  unfold layout. rewrite app_length. f_equal. induction ss as [|s t IH]; [reflexivity|].
  cbn [flat_map map list_sum fold_right]. rewrite app_length, sector_bytes_length, IH. reflexivity.
Qed.
Lemma track_layout_length std gap3 T ss : length (layout std gap3 ss) <= T -> length (track_layout std gap3 T ss) = T.
Proof. intros H. unfold track_layout. rewrite app_length, repeat_length. lia. Qed.

(* ---- slots ---- *)
Lemma slots_length std gap3 off ss : length (slots std gap3 off ss) = length ss.
Proof. revert off; induction ss as [|s t IH]; intros off; cbn; auto. Qed.
Lemma slots_snd std gap3 off ss : map snd (slots std gap3 off ss) = ss.
Proof. revert off; induction ss as [|s t IH]; intros off; cbn; f_equal; auto. Qed.
Lemma slots_lower std gap3 off ss i o s : nth_error (slots std gap3 off ss) i = Some (o, s) -> off <= o.
Proof.
  revert off i; induction ss as [|x t IH]; intros off [|i] H; cbn [slots nth_error] in H; try discriminate.
  - injection H as <- <-; lia.
  - apply IH in H. lia.
Qed.
Lemma slots_spaced std gap3 off ss i j o s o' s' : i < j ->
  nth_error (slots std gap3 off ss) i = Some (o, s) -> nth_error (slots std gap3 off ss) j = Some (o', s') ->
  o + sector_len std gap3 s <= o'.
Proof.
  revert off i j; induction ss as [|x t IH]; intros off [|i] [|j] Hij H1 H2; cbn [slots nth_error] in H1, H2; try discriminate; try lia.
  - injection H1 as <- <-. apply slots_lower in H2. exact H2.
  - apply (IH (off + sector_len std gap3 x) i j); auto; lia.
Qed.
Lemma sum_cons a l : list_sum (a :: l) = a + list_sum l. Proof. reflexivity. Qed.
Lemma slots_upper std gap3 off ss i o s : nth_error (slots std gap3 off ss) i = Some (o, s) ->
  o + sector_len std gap3 s <= off + list_sum (map (sector_len std gap3) ss).
Proof.
  revert off i; induction ss as [|x t IH]; intros off [|i] H; cbn [slots nth_error] in H; try discriminate; cbn [map]; rewrite sum_cons.
  - injection H as <- <-. lia.
  - apply IH in H. lia.
Qed.
Lemma slots_sec std gap3 off ss i o s : nth_error (slots std gap3 off ss) i = Some (o, s) -> nth_error ss i = Some s.
Proof.
  revert off i; induction ss as [|x t IH]; intros off [|i] H; cbn [slots nth_error upd fs_data] in *; try discriminate.
  - injection H as <- <-; reflexivity.
  - eapply IH; eauto.
Qed.
Lemma slots_nth std gap3 off ss i s : nth_error ss i = Some s -> exists o, nth_error (slots std gap3 off ss) i = Some (o, s).
Proof.
  revert off i; induction ss as [|x t IH]; intros off [|i] H; cbn [slots nth_error upd fs_data] in *; try discriminate.
  - injection H as <-; eauto.
  - eapply IH; eauto.
Qed.
Lemma slots_upd std gap3 off ss i o s s' : nth_error (slots std gap3 off ss) i = Some (o, s) ->
  length (fs_data s') = length (fs_data s) ->
  slots std gap3 off (upd ss i s') = upd (slots std gap3 off ss) i (o, s').
Proof.
  revert off i; induction ss as [|x t IH]; intros off [|i] H E; cbn [slots nth_error upd fs_data] in *; try discriminate.
  - injection H as <- <-. unfold sector_len. rewrite E. reflexivity.
  - f_equal. apply IH; auto.
Qed.

(* the bytes of a slot *)
Lemma slice_app_mid {A} (a b c : list A) n : length a = n -> slice (a ++ b ++ c) n (length b) = b.
Proof. intros <-. unfold slice. rewrite skipn_app_len. apply firstn_app_exact; reflexivity. Qed.

Lemma slot_bytes std gap3 pre ss post i o s :
  nth_error (slots std gap3 (length pre) ss) i = Some (o, s) ->
  slice (pre ++ flat_map (sector_bytes std gap3) ss ++ post) o (sector_len std gap3 s) = sector_bytes std gap3 s.
Proof.
  revert pre i; induction ss as [|x t IH]; intros pre [|i] H; cbn [slots nth_error] in H; try discriminate; cbn [flat_map].
  - injection H as <- <-. rewrite <- sector_bytes_length, <- app_assoc. apply slice_app_mid; reflexivity.
  - specialize (IH (pre ++ sector_bytes std gap3 x) i). rewrite app_length, sector_bytes_length in IH.
    specialize (IH H). rewrite <- app_assoc in IH |- *. exact IH.
Qed.
Lemma slice_slice {A} (l : list A) o n p k : p + k <= n -> slice (slice l o n) p k = slice l (o + p) k.
Proof.
  intros H. apply list_eq_nth_error. intros j. unfold slice.
  rewrite !nth_error_firstn, !nth_error_skipn, nth_error_firstn, nth_error_skipn.
  destruct (Nat.ltb_spec j k); auto. destruct (Nat.ltb_spec (p + j) n); [|lia]. f_equal. lia.
Qed.
