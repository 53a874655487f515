(* S34_scan_proofs.v - scanning a track that satisfies the invariant `holds`. *)
From Verif Require Import Base Base_lemmas Chs_model BitRing_model BitRing_proofs Mfm_model Mfm_spec Mfm_proofs Marker_proofs Codec_lemmas
  Crc_model Crc16_proofs System34_model System34_spec Stream_proofs S34_layout_proofs S34_format_proofs.
From Coq Require Import Lia.

Lemma slice_prefix {A} (l : list A) o n k : k <= n -> slice (slice l o n) 0 k = slice l o k.
Proof. intros H. rewrite slice_slice by lia. f_equal; lia. Qed.

Section Holds.
Context (std : Standard) (gap3 : nat) (ss : list fsector) (l : list bool) (B : list N).
Hypothesis (H : holds std gap3 ss l B).
Let A := map snd (a1_marks std (track_slots std gap3 ss)).
Let P := map (post_at std) (track_slots std gap3 ss).

Lemma holds_len : length l = 16 * length B. Proof. exact (proj1 (h_carries _ _ _ _ _ H)). Qed.
Lemma holds_slot i o s : nth_error (track_slots std gap3 ss) i = Some (o, s) ->
  length (preamble std) <= o /\ o + 40 + gap2_len std + length (fs_data s) <= length B.
Proof.
  intros Hs. destruct (slot_end _ _ _ _ _ _ Hs) as [H1 H2]. pose proof (h_fits _ _ _ _ _ H) as [_ Hf].
  unfold sector_len in H2. clear - H1 H2 Hf. lia.
Qed.
Lemma holds_mark_bytes k o : In (k, o) (a1_marks std (track_slots std gap3 ss)) ->
  a1_kind k = true /\ o + 4 <= length B /\ slice B o 4 = mark_bytes k.
Proof.
  intros Hin. destruct (a1_marks_in _ _ _ _ _ Hin) as (i & b & s & Hs & Hk).
  destruct (holds_slot _ _ _ Hs) as [_ He].
  destruct Hk as [[-> ->]|[-> ->]]; (split; [reflexivity|]); (split; [unfold idam_at, dam_at; clear - He; lia|]).
  - rewrite <- (slice_prefix B (idam_at b) 10 4) by lia. rewrite (h_header _ _ _ _ _ H _ _ _ Hs). reflexivity.
  - rewrite <- (slice_prefix B (dam_at std b) (length (fs_data s) + 6) 4) by lia. rewrite (h_data _ _ _ _ _ H _ _ _ Hs). reflexivity.
Qed.
Lemma holds_mark_data : mark_data l A (iam_at std).
Proof.
  split.
  - intros o Ho. apply in_map_iff in Ho as ([k o'] & <- & Hin). cbn [snd].
    destruct (holds_mark_bytes _ _ Hin) as (Hk & Hl & Hs).
    rewrite !(dbit_slice l B o' 4) by (try exact (h_carries _ _ _ _ _ H); clear - Hl; lia). rewrite Hs.
    destruct k; try discriminate; repeat split; reflexivity.
  - intros o Ho. pose proof (h_iam _ _ _ _ _ H _ Ho) as E. pose proof (h_fits _ _ _ _ _ H) as [Hf _].
    assert (Eo : o = 92) by (destruct std; cbn in Ho; congruence). subst o.
    split; [lia|].
    replace (8 * 92 - 1) with (8 * (92 - 1) + 7) by reflexivity. replace (8 * 92 + 6) with (8 * (92 - 1) + 14) by reflexivity.
    replace (8 * 92 + 9) with (8 * (92 - 1) + 17) by reflexivity.
    rewrite !(dbit_slice l B (92 - 1) 5) by (try exact (h_carries _ _ _ _ _ H); clear - Hf; lia). rewrite E. repeat split; reflexivity.
Qed.
Lemma holds_incr : incr 4 (length (preamble std) + 12) A.
Proof. apply slots_incr_marks. Qed.
Lemma holds_spacedA : spaced 4 A. Proof. eapply incr_spaced; [lia|apply holds_incr]. Qed.
Lemma holds_spacedP : spaced 2 P.
Proof.
  assert (G : spaced 40 P) by (eapply incr_spaced; [lia|apply slots_incr_posts]).
  intros a b Ha Hb Hab. specialize (G a b Ha Hb Hab). lia.
Qed.
Lemma holds_a1 p : occurs l A1_MASK A1_PAT p -> exists o, In o A /\ p = 16 * o.
Proof. apply (a1_found l A (iam_at std) P (h_clocks _ _ _ _ _ H) holds_spacedA holds_spacedP holds_mark_data). Qed.
Lemma holds_c2 p : occurs l A1_MASK C2_PAT p -> exists o, iam_at std = Some o /\ p = 16 * o.
Proof. apply (c2_found l A (iam_at std) P (h_clocks _ _ _ _ _ H) holds_spacedA holds_spacedP holds_mark_data). Qed.
Lemma holds_mark_win k o : In (k, o) (track_marks std gap3 ss) -> 16 * o + 64 <= length l /\ win64 l (16 * o) = marker_u64 k.
Proof.
  intros Hin. pose proof (h_marks _ _ _ _ _ H _ _ Hin) as Hm. split; [exact (proj1 Hm)|].
  apply mark_win; auto. destruct k; reflexivity.
Qed.
End Holds.

(* ---- the A1 mark loop ---- *)
Definition scaled (L : list (S34Marker * nat)) : list MarkerItem := map (fun '(k, o) => (k, 16 * o)) L.

Lemma first_a1 l L c : incr 4 c (map snd L) ->
  (forall k o, In (k, o) L -> a1_kind k = true /\ 16 * o + 64 <= length l /\ win64 l (16 * o) = marker_u64 k) ->
  (forall q, 16 * c <= q -> occurs l A1_MASK A1_PAT q -> exists o, In o (map snd L) /\ q = 16 * o) ->
  match L with
  | [] => no_occ l A1_MASK A1_PAT (16 * c) (length l)
  | (k, o) :: _ => first_occ l A1_MASK A1_PAT (16 * c) (length l) (16 * o)
  end.
Proof.
  intros Hi HL Hocc. destruct L as [|[k o] L].
  - intros q Hq _ Ho. destruct (Hocc q Hq Ho) as (o & [] & _).
  - destruct (HL k o (or_introl eq_refl)) as (Hk & Hl & Hw). inversion Hi as [|? ? ? Hco Ht]; subst.
    repeat split; try lia.
    + rewrite Hw. destruct k; try discriminate; reflexivity.
    + intros q [Hq1 Hq2] Ho. destruct (Hocc q Hq1 Ho) as (o' & Hin & ->). cbn [map snd In] in Hin.
      destruct Hin as [<-|Hin]; [lia|]. eapply incr_in in Ht; eauto. lia.
Qed.

Lemma scan_loop_spec m : plain (m_bits m) -> forall L fuel c acc, 0 < c -> length L < fuel ->
  incr 4 c (map snd L) ->
  (forall k o, In (k, o) L -> a1_kind k = true /\ 16 * o + 64 <= length (mfm_data m) /\ win64 (mfm_data m) (16 * o) = marker_u64 k) ->
  (forall q, 16 * c <= q -> occurs (mfm_data m) A1_MASK A1_PAT q -> exists o, In o (map snd L) /\ q = 16 * o) ->
  scan_loop fuel m (16 * c) acc = Ok (acc ++ scaled L).
Proof.
  intros Hp. induction L as [|[k o] L IH]; intros fuel c acc Hc Hf Hi HL Hocc; pose proof (first_a1 _ _ _ Hi HL Hocc) as Hfirst;
    (destruct fuel as [|fuel]; [cbn in Hf; lia|]); cbn [scan_loop]; unfold find_next_marker.
  - assert (E : find_marker m (mkMarker ANY_MARKER MARKER_MASK 64) (16 * c) None = Ok None).
    { apply find_marker_none; auto. }
    rewrite E. cbn [obind]. rewrite app_nil_r. reflexivity.
  - destruct (HL k o (or_introl eq_refl)) as (Hk & Hl & Hw). inversion Hi as [|? ? ? Hco Ht]; subst.
    assert (E : find_marker m (mkMarker ANY_MARKER MARKER_MASK 64) (16 * c) None = Ok (Some (16 * o, (win64 (mfm_data m) (16 * o) mod 2 ^ 16)%N))).
    { apply find_marker_some; auto. split; [exact Hfirst|]. split; [lia|reflexivity]. }
    rewrite E. cbn [obind option_map]. rewrite Hw.
    assert (E2 : marker_of_u16 (marker_u64 k mod 2 ^ 16) = Some k) by (destruct k; try discriminate; reflexivity).
    rewrite E2. cbn [option_map]. unfold MFM_BYTE_LEN.
    replace (16 * o + 4 * 16) with (16 * (o + 4)) by lia. rewrite IH.
    + rewrite <- app_assoc. reflexivity.
    + lia.
    + cbn [length] in Hf; lia.
    + exact Ht.
    + intros k' o' Hin. apply HL; right; auto.
    + intros q Hq Ho. destruct (Hocc q ltac:(lia) Ho) as (o' & Hin & ->). cbn [map snd In] in Hin.
      destruct Hin as [<-|Hin]; [lia|]. eauto.
Qed.

Lemma scan_loop0 fuel m acc : plain (m_bits m) -> ~ occurs (mfm_data m) A1_MASK A1_PAT 0 ->
  (forall q, 0 < q < 16 -> ~ occurs (mfm_data m) A1_MASK A1_PAT q) ->
  scan_loop fuel m 0 acc = scan_loop fuel m (16 * 1) acc.
Proof.
  intros Hp H0 Hq. destruct fuel as [|f]; [reflexivity|]. cbn [scan_loop]. f_equal. unfold find_next_marker. f_equal.
  assert (Hno : forall q, q < 16 -> ~ occurs (mfm_data m) A1_MASK A1_PAT q).
  { intros q Hlt. destruct q; [auto|apply Hq; lia]. }
  set (mk := mkMarker ANY_MARKER MARKER_MASK 64).
  destruct (find_marker m mk (16 * 1) None) as [[[p v]|]|e|] eqn:E.
  - apply find_marker_some in E as ((E1 & E2 & E3 & E4) & Ep & Ev); auto.
    apply find_marker_some; auto. split; [|auto]. split; [lia|]. split; [auto|]. split; [auto|].
    intros q Hlt. destruct (Nat.lt_ge_cases q 16); [apply Hno; auto|apply E4; lia].
  - apply find_marker_none in E; auto. apply find_marker_none; auto. intros q H1 H2.
    destruct (Nat.lt_ge_cases q 16); [apply Hno; auto|apply E; lia].
  - pose proof (find_marker_spec m mk (16 * 1) None Hp eq_refl) as G. rewrite E in G.
    destruct G as [(q & Hq1 & Hq2)|(Hn & Hq2)]; [|discriminate]. destruct (q =? 0); discriminate.
  - apply find_marker_panic in E; auto. exfalso. destruct E as (E1 & _). lia.
Qed.

Lemma incr_count L U : forall n, incr 4 n L -> (forall x, In x L -> x <= U) -> n <= U + 4 -> 4 * length L + n <= U + 4.
Proof.
  induction L as [|x L IH]; intros n Hi HU Hn; [cbn; lia|]. inversion Hi as [|? ? ? H1 H2]; subst.
  pose proof (HU x (or_introl eq_refl)). specialize (IH (x + 4) H2 (fun y Hy => HU y (or_intror Hy)) ltac:(lia)).
  cbn [length]. lia.
Qed.
Lemma track_marks_split std gap3 ss :
  track_marks std gap3 ss = (match iam_at std with Some p => [(Iam, p)] | None => [] end) ++ a1_marks std (track_slots std gap3 ss).
Proof. reflexivity. Qed.

Lemma scan_markers_spec std gap3 ss m B : plain (m_bits m) -> holds std gap3 ss (mfm_data m) B ->
  scan_markers m = Ok (scaled (track_marks std gap3 ss)).
Proof.
  intros Hp H. pose proof (holds_len _ _ _ _ _ H) as Hlen. pose proof (h_fits _ _ _ _ _ H) as [Hf _].
  set (AM := a1_marks std (track_slots std gap3 ss)).
  assert (HAM : forall k o, In (k, o) AM -> a1_kind k = true /\ 16 * o + 64 <= length (mfm_data m) /\ win64 (mfm_data m) (16 * o) = marker_u64 k).
  { intros k o Hin. split; [apply (holds_mark_bytes _ _ _ _ _ H _ _ Hin)|].
    apply (holds_mark_win _ _ _ _ _ H). rewrite track_marks_split. apply in_or_app. right. exact Hin. }
  pose proof (slots_incr_marks std gap3 ss (length (preamble std))) as Hi. fold (track_slots std gap3 ss) in Hi. fold AM in Hi.
  pose proof (holds_a1 _ _ _ _ _ H) as Ha1. fold AM in Ha1.
  assert (Hcount : length AM < S (mfm_len m)).
  { assert (E : mfm_len m = length (mfm_data m)) by reflexivity.
    rewrite E, Hlen.
    pose proof (incr_count (map snd AM) (length B + 16) _ Hi) as G. rewrite map_length in G.
    assert (GU : forall x, In x (map snd AM) -> x <= length B + 16).
    { intros x Hx. apply in_map_iff in Hx as ([k o] & <- & Hin). destruct (HAM _ _ Hin) as (_ & Hb & _). cbn [snd]. lia. }
    rewrite preamble_length in G. specialize (G GU). clear - G Hf.
    destruct std; lia. }
  assert (Hc2 : forall p, occurs (mfm_data m) (me_mask (marker64 (marker_u64 Iam))) (me_bits (marker64 (marker_u64 Iam))) p ->
                 exists o, iam_at std = Some o /\ p = 16 * o).
  { intros p Ho. apply (holds_c2 _ _ _ _ _ H). eapply occurs_mask in Ho; [exact Ho|reflexivity]. }
  unfold scan_markers, s34_find_marker.
  destruct (iam_at std) as [p|] eqn:Ei.
  - assert (Hpv : p = 92) by (destruct std; cbn in Ei; congruence).
    assert (Hin : In (Iam, p) (track_marks std gap3 ss)) by (rewrite track_marks_split, Ei; left; reflexivity).
    destruct (holds_mark_win _ _ _ _ _ H _ _ Hin) as [Hb Hw].
    assert (E : find_marker m (marker64 (marker_u64 Iam)) 0 (Some 5000) = Ok (Some (16 * p, (win64 (mfm_data m) (16 * p) mod 2 ^ 16)%N))).
    { apply find_marker_some; auto. split; [|split; [clear - Hpv; lia|reflexivity]].
      split; [lia|]. split; [|split].
      - unfold search_lim. change (mfm_len m) with (length (mfm_data m)). clear - Hpv Hb. lia.
      - split; [exact Hb|]. rewrite Hw. reflexivity.
      - intros q Hq Ho. destruct (Hc2 q Ho) as (o & Eo & ->). injection Eo as <-. lia. }
    rewrite E. cbn [obind]. unfold MFM_BYTE_LEN. replace (16 * p + 4 * 16) with (16 * (p + 4)) by lia.
    rewrite (scan_loop_spec m Hp AM); auto.
    + rewrite track_marks_split, Ei. reflexivity.
    + lia.
    + eapply incr_weaken; [exact Hi|]. rewrite preamble_length. clear - Ei Hpv. destruct std; cbn in Ei; try discriminate; lia.
  - assert (E : find_marker m (marker64 (marker_u64 Iam)) 0 (Some 5000) = Ok None).
    { apply find_marker_none; auto. intros q _ _ Ho. destruct (Hc2 q Ho) as (o & Eo & _). discriminate. }
    rewrite E. cbn [obind].
    assert (Hno : forall q, q < 16 -> ~ occurs (mfm_data m) A1_MASK A1_PAT q).
    { intros q Hq Ho. destruct (Ha1 q Ho) as (o & Hin & ->). eapply incr_in in Hi; [|exact Hin].
      rewrite preamble_length in Hi. clear - Hi Hq. destruct std; lia. }
    rewrite scan_loop0; auto; [|apply Hno; lia|intros q Hq; apply Hno; lia].
    rewrite (scan_loop_spec m Hp AM); auto.
    + rewrite track_marks_split, Ei. reflexivity.
    + eapply incr_weaken; [exact Hi|]. lia.
Qed.
