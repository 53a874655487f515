(* S34_format_proofs.v - the bitcells of a formatted track: the invariant `holds`, established by the
   encoding and marker writing steps of a format. *)
From Verif Require Import Base Base_lemmas Chs_model BitRing_model BitRing_proofs Mfm_model Mfm_spec Mfm_proofs Marker_proofs
  Crc_model Crc16_proofs System34_model System34_spec Stream_proofs S34_layout_proofs.
From Coq Require Import Lia.

Definition a1_marks (std : Standard) (sl : list (nat * fsector)) : list (S34Marker * nat) :=
  flat_map (fun '(o, s) => [(Idam, idam_at o); (Dam, dam_at std o)]) sl.
Definition post_at (std : Standard) (x : nat * fsector) : nat := fst x + 40 + gap2_len std + length (fs_data (snd x)).

Definition mark_bytes (k : S34Marker) : list N :=
  (match k with Iam => [0xC2; 0xC2; 0xC2; 0xFC] | Idam => [0xA1; 0xA1; 0xA1; 0xFE]
             | Dam => [0xA1; 0xA1; 0xA1; 0xFB] | Ddam => [0xA1; 0xA1; 0xA1; 0xF8] end)%N.

Record holds (std : Standard) (gap3 : nat) (ss : list fsector) (l : list bool) (B : list N) : Prop := mkHolds {
  h_carries : carries l B;
  h_bytes : bytes_ok B = true;
  h_fits : fits std gap3 (length B) ss;
  h_header : forall i o s, nth_error (track_slots std gap3 ss) i = Some (o, s) ->
               slice B (idam_at o) 10 = header_field (fs_id s);
  h_data : forall i o s, nth_error (track_slots std gap3 ss) i = Some (o, s) ->
               slice B (dam_at std o) (length (fs_data s) + 6) = data_field (fs_data s);
  h_iam : forall p, iam_at std = Some p -> slice B (p - 1) 5 = [0; 0xC2; 0xC2; 0xC2; 0xFC]%N;
  h_clocks : clocks_ok l (gaps (map snd (a1_marks std (track_slots std gap3 ss))) (iam_at std)
                               (map (post_at std) (track_slots std gap3 ss)));
  h_marks : forall k o, In (k, o) (track_marks std gap3 ss) -> mark_at l o (marker_u64 k) }.

(* ---- increasing lists of offsets ---- *)
Inductive incr (d : nat) : nat -> list nat -> Prop :=
| incr_nil n : incr d n []
| incr_cons n x t : n <= x -> incr d (x + d) t -> incr d n (x :: t).
Lemma incr_weaken d n n' L : incr d n L -> n' <= n -> incr d n' L.
Proof. intros H; destruct H; constructor; auto; lia. Qed.
Lemma incr_in d n L x : incr d n L -> In x L -> n <= x.
Proof. induction 1 as [|n y t Hy Ht IH]; intros Hin; [destruct Hin|]. destruct Hin as [->|Hin]; auto. specialize (IH Hin); lia. Qed.
Lemma incr_spaced d n L : 0 < d -> incr d n L -> spaced d L.
Proof.
  intros Hd. induction 1 as [|n y t Hy Ht IH]; intros a b Ha Hb Hlt; [destruct Ha|].
  destruct Ha as [->|Ha], Hb as [->|Hb]; try lia.
  - eapply incr_in in Hb; eauto.
  - eapply incr_in in Ha; eauto. lia.
  - apply IH; auto.
Qed.

Lemma slots_incr_marks std gap3 ss : forall off, incr 4 (off + 12) (map snd (a1_marks std (slots std gap3 off ss))).
Proof.
  induction ss as [|s t IH]; intros off; cbn [slots a1_marks flat_map map app snd]; constructor.
  - unfold idam_at; lia.
  - constructor; [unfold idam_at, dam_at; lia|]. eapply incr_weaken; [apply IH|].
    unfold dam_at, sector_len. lia.
Qed.
Lemma slots_incr_posts std gap3 ss : forall off, incr 40 (off + 40) (map (post_at std) (slots std gap3 off ss)).
Proof.
  induction ss as [|s t IH]; intros off; cbn [slots map]; constructor.
  - unfold post_at; cbn [fst snd]; lia.
  - eapply incr_weaken; [apply IH|]. unfold post_at, sector_len; cbn [fst snd]. lia.
Qed.

(* ---- the 64 cells of a mark ---- *)
Definition cells64 (v : N) : list bool := map (fun i => N.testbit v (N.of_nat (63 - i))) (seq 0 64).
Lemma be64_cells k : bits_of (be64 (marker_u64 k)) = cells64 (marker_u64 k).
Proof. destruct k; reflexivity. Qed.
Lemma cells64_length v : length (cells64 v) = 64.
Proof. unfold cells64; rewrite map_length, seq_length; reflexivity. Qed.
Definition a1_kind (k : S34Marker) : bool := match k with Idam | Dam => true | _ => false end.

Definition small (P : nat -> bool) (n : nat) : bool := forallb P (seq 0 n).
Lemma small_spec P n j : small P n = true -> j < n -> P j = true.
Proof. unfold small. rewrite forallb_forall. intros H Hj. apply H, in_seq. lia. Qed.

Lemma cells_data k : k <> Ddam -> forall j, j < 32 -> nth (2 * j + 1) (cells64 (marker_u64 k)) false = nth j (bits_of (mark_bytes k)) false.
Proof.
  intros Hk j Hj. apply eqb_prop.
  apply (small_spec (fun j => Bool.eqb (nth (2 * j + 1) (cells64 (marker_u64 k)) false) (nth j (bits_of (mark_bytes k)) false)) 32); auto.
  destruct k; try congruence; vm_compute; reflexivity.
Qed.
Definition gap_ok (k : S34Marker) (j : nat) : bool :=
  match k with Iam => (j =? 4) || (j =? 12) || (j =? 20) | _ => (j =? 5) || (j =? 13) || (j =? 21) end.
Lemma cells_gaps k : k <> Ddam -> forall j, S j < 32 -> nth (2 * j + 1) (cells64 (marker_u64 k)) false = false ->
  nth (2 * S j) (cells64 (marker_u64 k)) false = false -> nth (2 * S j + 1) (cells64 (marker_u64 k)) false = false ->
  gap_ok k (S j) = true.
Proof.
  intros Hk j Hj H1 H2 H3.
  assert (E : (nth (2 * j + 1) (cells64 (marker_u64 k)) false || nth (2 * S j) (cells64 (marker_u64 k)) false
               || nth (2 * S j + 1) (cells64 (marker_u64 k)) false || gap_ok k (S j)) = true).
  { apply (small_spec (fun j => nth (2 * j + 1) (cells64 (marker_u64 k)) false || nth (2 * S j) (cells64 (marker_u64 k)) false
               || nth (2 * S j + 1) (cells64 (marker_u64 k)) false || gap_ok k (S j)) 31); [|lia].
    destruct k; try congruence; vm_compute; reflexivity. }
  rewrite H1, H2, H3 in E. exact E.
Qed.
Lemma gap_ok_cases k j : gap_ok k j = true ->
  match k with Iam => j = 4 \/ j = 12 \/ j = 20 | _ => j = 5 \/ j = 13 \/ j = 21 end.
Proof.
  unfold gap_ok. destruct k; rewrite !orb_true_iff, !Nat.eqb_eq; tauto.
Qed.

(* ---- writing one mark ---- *)
Lemma write_mark l B k o C : carries l B -> k <> Ddam -> o + 4 <= length B ->
  clocks_ok l C ->
  (nth 63 (cells64 (marker_u64 k)) false = false -> dbit l (8 * o + 31) = false) ->
  let l' := circ_write l (16 * o) (cells64 (marker_u64 k)) in
  carries l' (splice B o (mark_bytes k)) /\
  clocks_ok l' (fun q => C q \/ exists j, gap_ok k j = true /\ q = 8 * o + j) /\
  mark_at l' o (marker_u64 k) /\
  forall j, ~ (16 * o <= j < 16 * o + 64) -> nth j l' false = nth j l false.
Proof.
  intros Hc Hk Ho HC Hlast l'. pose proof (proj1 Hc) as Hl.
  assert (HL : 16 * o + length (cells64 (marker_u64 k)) <= length l) by (rewrite cells64_length; lia).
  split; [|split; [|split]].
  - apply carries_mark; auto using cells64_length; [destruct k; reflexivity|apply cells_data; auto].
  - apply (clocks_ok_mark l C o (cells64 (marker_u64 k)) (fun j => gap_ok k j = true)); auto using cells64_length.
    + destruct k; try congruence; reflexivity.
    + intros j Hj. apply cells_gaps; auto.
  - split; [unfold l'; rewrite circ_write_length; lia|]. fold (cells64 (marker_u64 k)).
    apply list_eq_nth_error. intros j. unfold slice. rewrite nth_error_firstn.
    destruct (Nat.ltb_spec j 64) as [Hj|Hj].
    + rewrite nth_error_skipn. assert (EL : length l' = length l) by apply circ_write_length.
      rewrite (nth_error_nth' l' false) by lia. rewrite (nth_error_nth' (cells64 (marker_u64 k)) false) by (rewrite cells64_length; lia).
      f_equal. unfold l'. rewrite circ_write_nth by auto. rewrite cells64_length.
      replace (16 * o <=? 16 * o + j) with true by (symmetry; apply Nat.leb_le; lia).
      replace (16 * o + j <? 16 * o + 64) with true by (symmetry; apply Nat.ltb_lt; lia).
      cbn [andb]. f_equal. lia.
    + symmetry. apply nth_error_None. rewrite cells64_length; lia.
  - intros j Hj. unfold l'. rewrite circ_write_nth by auto. rewrite cells64_length.
    destruct (Nat.leb_spec (16 * o) j), (Nat.ltb_spec j (16 * o + 64)); auto. lia.
Qed.

Lemma splice_same_bytes {A} (B : list A) o dat : o + length dat <= length B -> slice B o (length dat) = dat -> splice B o dat = B.
Proof.
  intros H E. apply list_eq_nth_error. intros j. rewrite nth_error_splice by auto.
  destruct (Nat.leb_spec o j); cbn [andb]; auto. destruct (Nat.ltb_spec j (o + length dat)); auto.
  rewrite <- E at 1. unfold slice. rewrite nth_error_firstn, nth_error_skipn.
  destruct (Nat.ltb_spec (j - o) (length dat)); [|lia]. f_equal. lia.
Qed.

Lemma dbit_slice l B o n j : carries l B -> j < 8 * n -> o + n <= length B ->
  dbit l (8 * o + j) = nth j (bits_of (slice B o n)) false.
Proof.
  intros [Hl Hd] Hj Ho. rewrite Hd. unfold slice. rewrite <- firstn_bits, <- skipn_bits.
  pose proof (nth_error_firstn (skipn (8 * o) (bits_of B)) (8 * n) j) as E.
  destruct (Nat.ltb_spec j (8 * n)); [|lia]. rewrite nth_error_skipn in E.
  rewrite <- !nth_default_eq. unfold nth_default. rewrite E. reflexivity.
Qed.

(* writing all the A1 marks *)
Definition write_marks (l : list bool) (L : list (S34Marker * nat)) : list bool :=
  fold_left (fun l '(k, o) => circ_write l (16 * o) (cells64 (marker_u64 k))) L l.

Lemma write_marks_cons l k o L : write_marks l ((k, o) :: L) = write_marks (circ_write l (16 * o) (cells64 (marker_u64 k))) L.
Proof. reflexivity. Qed.
Lemma with_bits_id m : with_bits m (ring_with (m_bits m) (mfm_data m)) = m.
Proof. destruct m as [[] ? ? ? ? ? ? ? ?]; reflexivity. Qed.
Lemma with_bits_twice m a b : with_bits (with_bits m (ring_with (m_bits m) a)) (ring_with (m_bits (with_bits m (ring_with (m_bits m) a))) b)
  = with_bits m (ring_with (m_bits m) b).
Proof. reflexivity. Qed.
Lemma write_mark_cells m k o : plain (m_bits m) -> write_raw_buf m (be64 (marker_u64 k)) (o * MFM_BYTE_LEN) =
  Ok (with_bits m (ring_with (m_bits m) (circ_write (mfm_data m) (16 * o) (cells64 (marker_u64 k))))).
Proof.
  intros Hp. rewrite write_raw_buf_spec by auto. rewrite be64_cells. unfold MFM_BYTE_LEN. rewrite Nat.mul_comm. reflexivity.
Qed.
Lemma ofold_cons {A B} (f : A -> B -> outcome A) s x L : ofold f (x :: L) s = obind (f s x) (ofold f L).
Proof. reflexivity. Qed.
Lemma set_track_markers_spec L : forall m, plain (m_bits m) ->
  set_track_markers m L = Ok (with_bits m (ring_with (m_bits m) (write_marks (mfm_data m) L))).
Proof.
  unfold set_track_markers.
  induction L as [|[k o] L IH]; intros m Hp.
  - change (write_marks (mfm_data m) []) with (mfm_data m). rewrite with_bits_id. reflexivity.
  - rewrite ofold_cons, write_mark_cells, write_marks_cons by auto.
    generalize (cells64 (marker_u64 k)). intros cl. cbn [obind]. rewrite IH, with_bits_twice; [reflexivity|].
    cbn [with_bits m_bits]. apply plain_with; auto. unfold mfm_data. rewrite circ_write_length. reflexivity.
Qed.

Lemma a1_marks_written B A I P L : forall l n,
  carries l B -> clocks_ok l (gaps A I P) -> incr 4 n (map snd L) ->
  (forall k o, In (k, o) L -> a1_kind k = true /\ o + 4 <= length B /\ slice B o 4 = mark_bytes k /\ In o A) ->
  let l' := write_marks l L in
  carries l' B /\ clocks_ok l' (gaps A I P) /\
  (forall k o, In (k, o) L -> mark_at l' o (marker_u64 k)) /\
  (forall j, j < 16 * n -> nth j l' false = nth j l false).
Proof.
  induction L as [|[k o] L IH]; intros l n Hc HC Hi HL l'; unfold l'; clear l'.
  { change (write_marks l []) with l. split; [auto|split; [auto|split; [intros ? ? []|auto]]]. }
  rewrite write_marks_cons.
  destruct (HL k o (or_introl eq_refl)) as (Hk & Ho & Hs & HA).
  assert (Hk' : k <> Ddam) by (intros ->; discriminate Hk).
  assert (Hlast : nth 63 (cells64 (marker_u64 k)) false = false -> dbit l (8 * o + 31) = false).
  { intros E. rewrite (dbit_slice l B o 4) by (auto; lia). rewrite Hs. destruct k; try discriminate; reflexivity. }
  destruct (write_mark l B k o _ Hc Hk' Ho HC Hlast) as (W1 & W2 & W3 & W4).
  assert (HLk : length (mark_bytes k) = 4) by (destruct k; reflexivity).
  rewrite splice_same_bytes in W1 by (rewrite HLk; auto). clear HLk.
  inversion Hi as [|? ? ? Hno Hrest]; subst.
  destruct (IH _ (o + 4) W1) as (R1 & R2 & R3 & R4); auto.
  { eapply clocks_ok_weaken; [exact W2|]. intros q [Hq|(j & Hj & ->)]; auto. left. exists o. split; auto.
    apply gap_ok_cases in Hj. destruct k; try discriminate; lia. }
  { intros k' o' Hin. apply HL. right; auto. }
  split; [exact R1|split; [exact R2|split]].
  - intros k' o' [E|Hin]; [|apply R3; auto]. injection E as <- <-.
    eapply mark_at_outside; [exact W3| |].
    + destruct R1 as [R1 _], W1 as [W1 _]. rewrite R1, <- W1. reflexivity.
    + intros j Hj. apply R4. lia.
  - intros j Hj. rewrite <- W4 by lia. apply R4. lia.
Qed.

(* ---- the layout bytes ---- *)
Lemma repeat_bytes_ok b n : (b < 256)%N -> bytes_ok (repeat b n) = true.
Proof. intros H. apply bytes_ok_Forall. induction n; cbn; constructor; auto. Qed.
Lemma flat_map_bytes_ok {A} (f : A -> list N) l : (forall x, In x l -> bytes_ok (f x) = true) -> bytes_ok (flat_map f l) = true.
Proof.
  induction l as [|x l IH]; intros H; [reflexivity|]. cbn [flat_map]. rewrite bytes_ok_app, H by (left; auto).
  apply IH. intros y Hy. apply H. right; auto.
Qed.
Lemma with_crc_ok l : bytes_ok l = true -> bytes_ok (with_crc l) = true.
Proof. intros H. unfold with_crc. rewrite bytes_ok_app, H. apply be16_ok. apply crc_lt_none. auto. Qed.
Lemma header_field_ok s : sector_ok s -> bytes_ok (header_field (fs_id s)) = true.
Proof.
  intros (_ & _ & H). apply with_crc_ok. rewrite bytes_ok_app. apply andb_true_intro. split; [reflexivity|].
  unfold bytes_ok in *. cbn [forallb] in *. rewrite !andb_true_iff in H |- *. destruct H as (H1 & H2).
  split; auto. apply N.ltb_lt. apply N.mod_upper_bound. discriminate.
Qed.
Lemma data_field_ok s : sector_ok s -> bytes_ok (data_field (fs_data s)) = true.
Proof. intros (_ & H & _). apply with_crc_ok. rewrite bytes_ok_app, H. reflexivity. Qed.
Lemma sector_bytes_ok std gap3 s : sector_ok s -> bytes_ok (sector_bytes std gap3 s) = true.
Proof.
  intros H. unfold sector_bytes. rewrite !bytes_ok_app, header_field_ok, data_field_ok, !repeat_bytes_ok by (auto; reflexivity). reflexivity.
Qed.
Lemma track_layout_ok std gap3 T ss : Forall sector_ok ss -> bytes_ok (track_layout std gap3 T ss) = true.
Proof.
  intros H. unfold track_layout, layout. rewrite !bytes_ok_app, repeat_bytes_ok by reflexivity.
  rewrite flat_map_bytes_ok.
  - rewrite andb_true_r, andb_true_r. destruct std; reflexivity.
  - intros s Hs. apply sector_bytes_ok. rewrite Forall_forall in H; auto.
Qed.

Lemma slot_bytes_layout std gap3 T ss i o s : nth_error (track_slots std gap3 ss) i = Some (o, s) ->
  slice (track_layout std gap3 T ss) o (sector_len std gap3 s) = sector_bytes std gap3 s.
Proof. intros H. unfold track_layout, layout. rewrite <- app_assoc. eapply slot_bytes; eauto. Qed.
Lemma slot_header std gap3 T ss i o s : nth_error (track_slots std gap3 ss) i = Some (o, s) ->
  slice (track_layout std gap3 T ss) (idam_at o) 10 = header_field (fs_id s).
Proof.
  intros H. unfold idam_at. rewrite <- (slice_slice _ o (sector_len std gap3 s)) by (unfold sector_len; lia).
  rewrite (slot_bytes_layout _ _ _ _ _ _ _ H). unfold sector_bytes.
  apply (slice_app_mid (repeat 0%N 12) (header_field (fs_id s))). apply repeat_length.
Qed.
Lemma slot_data std gap3 T ss i o s : nth_error (track_slots std gap3 ss) i = Some (o, s) ->
  slice (track_layout std gap3 T ss) (dam_at std o) (length (fs_data s) + 6) = data_field (fs_data s).
Proof.
  intros H. unfold dam_at. rewrite <- Nat.add_assoc. rewrite <- (slice_slice _ o (sector_len std gap3 s)) by (unfold sector_len; lia).
  rewrite (slot_bytes_layout _ _ _ _ _ _ _ H). unfold sector_bytes. rewrite <- data_field_length.
  rewrite !app_assoc. rewrite <- (app_assoc _ (data_field _)).
  apply slice_app_mid. rewrite !app_length, !repeat_length, header_field_length. lia.
Qed.
Lemma slot_end std gap3 ss i o s : nth_error (track_slots std gap3 ss) i = Some (o, s) ->
  length (preamble std) <= o /\ o + sector_len std gap3 s <= length (layout std gap3 ss).
Proof.
  intros H. split; [eapply slots_lower; exact H|]. rewrite layout_length. eapply slots_upper; exact H.
Qed.

Lemma slice_splice_other {A} (l src : list A) b p n : b + length src <= length l -> (p + n <= b \/ b + length src <= p) ->
  slice (splice l b src) p n = slice l p n.
Proof.
  intros H Hd. apply list_eq_nth_error. intros j. unfold slice. rewrite !nth_error_firstn, !nth_error_skipn.
  destruct (Nat.ltb_spec j n); auto. rewrite nth_error_splice by auto.
  destruct (Nat.leb_spec b (p + j)); cbn [andb]; auto. destruct (Nat.ltb_spec (p + j) (b + length src)); auto. lia.
Qed.
Lemma splice_bytes_ok B b src : b + length src <= length B -> bytes_ok B = true -> bytes_ok src = true -> bytes_ok (splice B b src) = true.
Proof.
  rewrite !bytes_ok_Forall. intros H H1 H2. apply Forall_forall. intros x Hx. apply In_nth_error in Hx as [j Hj].
  rewrite nth_error_splice in Hj by auto. destruct ((b <=? j) && (j <? b + length src)).
  - apply nth_error_In in Hj. rewrite Forall_forall in H2; auto.
  - apply nth_error_In in Hj. rewrite Forall_forall in H1; auto.
Qed.

(* the bytes of a formatted track *)
Definition final_bytes (std : Standard) (gap3 T : nat) (ss : list fsector) : list N :=
  match iam_at std with
  | Some p => splice (track_layout std gap3 T ss) p (mark_bytes Iam)
  | None => track_layout std gap3 T ss
  end.

Lemma a1_marks_in std gap3 ss k o : In (k, o) (a1_marks std (track_slots std gap3 ss)) ->
  exists i b s, nth_error (track_slots std gap3 ss) i = Some (b, s) /\
    ((k = Idam /\ o = idam_at b) \/ (k = Dam /\ o = dam_at std b)).
Proof.
  unfold a1_marks. rewrite in_flat_map. intros ([b s] & Hin & H). apply In_nth_error in Hin as [i Hi].
  exists i, b, s. split; auto. destruct H as [H|[H|[]]]; injection H as <- <-; auto.
Qed.
Lemma marks_of_slot std gap3 ss i b s : nth_error (track_slots std gap3 ss) i = Some (b, s) ->
  In (Idam, idam_at b) (a1_marks std (track_slots std gap3 ss)) /\ In (Dam, dam_at std b) (a1_marks std (track_slots std gap3 ss)).
Proof.
  intros H. apply nth_error_In in H. unfold a1_marks. rewrite !in_flat_map. split; exists (b, s); cbn; auto.
Qed.

Theorem format_holds std gap3 T ss : Forall sector_ok ss -> fits std gap3 T ss ->
  holds std gap3 ss (write_marks (mfm false (bits_of (track_layout std gap3 T ss))) (track_marks std gap3 ss))
        (final_bytes std gap3 T ss).
Proof.
  intros Hok [HT Hfit].
  set (B0 := track_layout std gap3 T ss). set (l0 := mfm false (bits_of B0)).
  assert (HB0 : length B0 = T) by (apply track_layout_length; auto).
  assert (Hok0 : bytes_ok B0 = true) by (apply track_layout_ok; auto).
  assert (C0 : carries l0 B0) by apply carries_mfm.
  assert (K0 : clocks_ok l0 (fun _ => False)).
  { intros k H1 H2 H3 H4. unfold l0, dbit, cbit in *.
    rewrite mfm_nth_clock in H3 by (rewrite mfm_length in H1; lia). rewrite !mfm_nth_data in *.
    change (nth (S k) (false :: bits_of B0) false) with (nth k (bits_of B0) false) in H3. rewrite H2, H4 in H3. discriminate. }
  set (A := map snd (a1_marks std (track_slots std gap3 ss))). set (P := map (post_at std) (track_slots std gap3 ss)).
  set (Bf := final_bytes std gap3 T ss).
  (* after the index mark *)
  assert (Hiam : exists l1, write_marks l0 (match iam_at std with Some p => [(Iam, p)] | None => [] end) = l1 /\
     carries l1 Bf /\ bytes_ok Bf = true /\ length Bf = T /\ clocks_ok l1 (gaps A (iam_at std) P) /\
     (forall p, iam_at std = Some p -> mark_at l1 p (marker_u64 Iam)) /\
     (forall p, iam_at std = Some p -> slice Bf (p - 1) 5 = [0; 0xC2; 0xC2; 0xC2; 0xFC]%N) /\
     (forall q n, 104 <= q \/ std = SIso -> slice Bf q n = slice B0 q n)).
  { unfold Bf, final_bytes. fold B0. destruct (iam_at std) as [p|] eqn:Ei.
    - assert (Hp : p = 92) by (destruct std; cbn in Ei; congruence).
      assert (H91 : slice B0 91 1 = [0%N]).
      { unfold B0, track_layout, layout. destruct std; [| |discriminate Ei]; rewrite <- app_assoc; reflexivity. }
      assert (H92 : exists x, slice B0 92 4 = [x; x; x; x] /\ N.testbit x 0 = false).
      { destruct ss as [|s0 ss0].
        - exists 0x4E%N. split; [|reflexivity]. unfold B0, track_layout, layout. cbn [flat_map]. rewrite app_nil_r.
          replace (T - length (preamble std)) with (4 + (T - 96)) by (destruct std; try discriminate Ei; cbn [preamble length]; rewrite ?app_length, ?repeat_length; lia).
          rewrite repeat_app. destruct std; try discriminate Ei; reflexivity.
        - exists 0%N. split; [|reflexivity].
          assert (H0 : nth_error (track_slots std gap3 (s0 :: ss0)) 0 = Some (92, s0)) by (destruct std; try discriminate Ei; reflexivity).
          pose proof (slot_bytes_layout std gap3 T _ _ _ _ H0) as E. fold B0 in E.
          pose proof (slice_slice B0 92 (sector_len std gap3 s0) 0 4) as G. rewrite Nat.add_0_r in G. rewrite <- G by (unfold sector_len; lia).
          rewrite E. reflexivity. }
      assert (Hl92 : nth 63 (cells64 (marker_u64 Iam)) false = false -> dbit l0 (8 * p + 31) = false).
      { intros _. rewrite (dbit_slice l0 B0 p 4) by (auto; lia). destruct H92 as (x & Hx & Hb). rewrite Hp, Hx.
        exact Hb. }
      destruct (write_mark l0 B0 Iam p _ C0 ltac:(discriminate) ltac:(lia) K0 Hl92) as (W1 & W2 & W3 & W4).
      assert (Hsp : p + length (mark_bytes Iam) <= length B0) by (cbn [mark_bytes length]; lia).
      eexists. split; [reflexivity|]. cbn [write_marks fold_left].
      split; [exact W1|]. split; [apply splice_bytes_ok; auto|]. split; [rewrite splice_length; auto|].
      split; [|split; [|split]].
      + eapply clocks_ok_weaken; [exact W2|]. intros q [[]|(j & Hj & ->)]. right; left. exists p. split; auto.
        apply gap_ok_cases in Hj. lia.
      + intros q Hq. injection Hq as <-. exact W3.
      + intros q Hq. injection Hq as <-.
        rewrite Hp in *. apply list_eq_nth_error. intros j. unfold slice. rewrite nth_error_firstn, nth_error_skipn.
        destruct (Nat.ltb_spec j 5) as [Hj|Hj]; [|symmetry; apply nth_error_None; cbn [length]; lia].
        rewrite nth_error_splice by auto. destruct j as [|j].
        * cbn [Nat.leb Nat.add Nat.sub]. replace (92 <=? 91) with false by reflexivity. cbn [andb].
          apply (f_equal (fun l => nth_error l 0)) in H91. unfold slice in H91. rewrite nth_error_firstn, nth_error_skipn in H91. exact H91.
        * replace (92 - 1 + S j) with (92 + j) by lia.
          replace (92 <=? 92 + j) with true by (symmetry; apply Nat.leb_le; lia).
          cbn [mark_bytes length]. replace (92 + j <? 92 + 4) with true by (symmetry; apply Nat.ltb_lt; lia).
          cbn [andb]. replace (92 + j - 92) with j by lia. reflexivity.
      + intros q n [Hq|Hq]; [|subst std; discriminate]. apply slice_splice_other; auto. right. cbn [mark_bytes length]. lia.
    - exists l0. split; [reflexivity|]. split; [exact C0|]. split; [exact Hok0|]. split; [exact HB0|].
      split; [eapply clocks_ok_weaken; [exact K0|]; intros ? []|]. split; [discriminate|]. split; [discriminate|].
      intros; reflexivity. }
  destruct Hiam as (l1 & E1 & D1 & D2 & D3 & D4 & D5 & D6 & D7).
  assert (Hpre : forall i o s, nth_error (track_slots std gap3 ss) i = Some (o, s) -> 92 <= o \/ std = SIso).
  { intros i o s H. destruct (slot_end _ _ _ _ _ _ H) as [H1 _]. destruct std; auto; cbn in H1; auto. }
  assert (Hh : forall i o s, nth_error (track_slots std gap3 ss) i = Some (o, s) -> slice Bf (idam_at o) 10 = header_field (fs_id s)).
  { intros i o s H. rewrite D7; [eapply slot_header; eauto|]. unfold idam_at. destruct (Hpre _ _ _ H); auto. left; lia. }
  assert (Hd : forall i o s, nth_error (track_slots std gap3 ss) i = Some (o, s) ->
     slice Bf (dam_at std o) (length (fs_data s) + 6) = data_field (fs_data s)).
  { intros i o s H. rewrite D7; [eapply slot_data; eauto|]. unfold dam_at. destruct (Hpre _ _ _ H); auto. left; lia. }
  assert (EW : write_marks l0 (track_marks std gap3 ss) = write_marks l1 (a1_marks std (track_slots std gap3 ss))).
  { rewrite <- E1. unfold write_marks, track_marks. rewrite fold_left_app. reflexivity. }
  rewrite EW. clear EW.
  destruct (a1_marks_written Bf A (iam_at std) P (a1_marks std (track_slots std gap3 ss)) l1
              (length (preamble std) + 12) D1 D4) as (R1 & R2 & R3 & R4).
  { apply slots_incr_marks. }
  { intros k o Hin. assert (HinA : In o A) by (apply in_map_iff; exists (k, o); auto).
    destruct (a1_marks_in _ _ _ _ _ Hin) as (i & b & s & Hs & Hk). pose proof (slot_end _ _ _ _ _ _ Hs) as [_ He].
    unfold sector_len in He.
    destruct Hk as [[-> ->]|[-> ->]]; (split; [reflexivity|]); (split; [unfold idam_at, dam_at; lia|]); split; auto.
    - pose proof (slice_slice Bf (idam_at b) 10 0 4 ltac:(lia)) as G. rewrite Nat.add_0_r in G. rewrite <- G, (Hh _ _ _ Hs). reflexivity.
    - pose proof (slice_slice Bf (dam_at std b) (length (fs_data s) + 6) 0 4 ltac:(lia)) as G. rewrite Nat.add_0_r in G.
      rewrite <- G, (Hd _ _ _ Hs). reflexivity. }
  constructor; auto.
  - split; [lia|]. rewrite D3. exact Hfit.
  - intros k o Hin. unfold track_marks in Hin. apply in_app_or in Hin as [Hin|Hin]; [|apply R3; exact Hin].
    destruct (iam_at std) as [p|] eqn:Ei; [|destruct Hin]. destruct Hin as [Hin|[]]. injection Hin as <- <-.
    eapply mark_at_outside; [apply D5; reflexivity| |].
    + destruct R1 as [R1 _], D1 as [D1 _]. lia.
    + intros j Hj. apply R4. rewrite preamble_length. clear - Ei Hj. destruct std; cbn in Ei; try discriminate; injection Ei as <-; lia.
Qed.
