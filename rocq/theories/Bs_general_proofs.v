(* Bs_general_proofs.v - facts about scanning and loading ARBITRARY bitstream tracks. *)
From Verif Require Import Base Base_lemmas Chs_model BitRing_model RangeCheck_model Mfm_model Crc_model Types_model
  System34_model BitStream_model Mfm_spec BitRing_proofs Mfm_proofs Marker_proofs Codec_lemmas TreeMap_proofs Stream_proofs System34_spec
  S34_layout_proofs S34_format_proofs S34_scan_proofs S34_clock_proofs S34_meta_proofs S34_track_proofs.

(* ---- scanning changes nothing in the codec but the cursor ---- *)
Definition moved (m m' : Mfm) : Prop := exists c, m' = with_cursor m c.
Lemma moved_refl m : moved m m.
Proof. exists (m_cursor m). symmetry. apply with_cursor_same. Qed.
Lemma moved_trans a b c : moved a b -> moved b c -> moved a c.
Proof. intros [x ->] [y ->]. exists y. apply with_cursor_twice. Qed.

Lemma ofold_inv {A S} (P : S -> S -> Prop) (f : S -> A -> outcome S) :
  (forall s, P s s) -> (forall a b c, P a b -> P b c -> P a c) -> (forall s x s', f s x = Ok s' -> P s s') ->
  forall l s s', ofold f l s = Ok s' -> P s s'.
Proof.
  intros R T F. induction l as [|x l IH]; intros s s'; cbn [ofold].
  - intros E; injection E as <-. apply R.
  - destruct (f s x) as [s1| |] eqn:E; cbn [obind]; try discriminate. intros E'. eapply T; eauto.
Qed.

Lemma next_moved rnd m b m' : mfm_next rnd m = Ok (b, m') -> moved m m'.
Proof.
  unfold mfm_next. destruct (nudge m (m_cursor m)) as [c| |]; cbn [obind]; try discriminate.
  match goal with |- obind ?e _ = _ -> _ => destruct e end; cbn [obind]; try discriminate.
  intros E; injection E as _ <-. eexists; reflexivity.
Qed.
Lemma read_byte_moved rnd m b m' : mfm_read_byte rnd m = Ok (b, m') -> moved m m'.
Proof.
  unfold mfm_read_byte. intros E.
  apply (ofold_inv (fun a b => moved (snd a) (snd b))) in E; auto.
  - intros s; apply moved_refl.
  - intros ? ? ?; apply moved_trans.
  - intros [y n] _ [y' n']. destruct (mfm_next rnd n) as [[c n1]| |] eqn:En; cbn [obind]; try discriminate.
    intros E'; injection E' as _ <-. cbn [snd]. eapply next_moved; eauto.
Qed.
Lemma read_loop_moved rnd : forall n m l m', mfm_read_loop rnd n m = Ok (l, m') -> moved m m'.
Proof.
  induction n as [|n IH]; intros m l m'; cbn [mfm_read_loop].
  - intros E; injection E as _ <-. apply moved_refl.
  - destruct (mfm_read_byte rnd m) as [[b m1]| |] eqn:E1; cbn [obind]; try discriminate.
    destruct (mfm_read_loop rnd n m1) as [[l2 m2]| |] eqn:E2; cbn [obind]; try discriminate.
    intros E; injection E as _ <-. eapply moved_trans; [eapply read_byte_moved; eauto|eauto].
Qed.
Lemma seek_moved m off m' : mfm_seek_start m off = Ok m' -> moved m m'.
Proof.
  unfold mfm_seek_start. destruct (ring_is_empty (m_bits m)); [discriminate|].
  destruct (nudge m off) as [c| |]; cbn [obind]; try discriminate. intros E; injection E as <-. eexists; reflexivity.
Qed.
Lemma mfm_read_moved rnd n m l m' : mfm_read rnd n m = Ok (l, m') -> moved m m'.
Proof. unfold mfm_read. destruct (ring_is_empty (m_bits m)); [discriminate|]. apply read_loop_moved. Qed.
Lemma crc16_moved rnd m a b x y m' : s34_crc16 rnd m a b = Ok (x, y, m') -> moved m m'.
Proof.
  unfold s34_crc16. destruct (b <? a); [discriminate|].
  destruct (mfm_seek_start m a) as [m1| |] eqn:E1; try discriminate.
  destruct (mfm_read rnd _ m1) as [[d m2]| |] eqn:E2; try discriminate.
  destruct (oindex d _); cbn [obind]; try discriminate. destruct (oindex d (_ + 1)); cbn [obind]; try discriminate.
  intros E; injection E as _ _ <-. eapply moved_trans; [eapply seek_moved; eauto|eapply mfm_read_moved; eauto].
Qed.

(* ---- the shape of scanned elements ---- *)
(* the elements pushed for one marker: at most a header alone, or a header with its data, then the marker *)
Inductive pushed (m : Mfm) (st : ScanState) (mk : S34Marker) (off : nat) (sid' : SectorId) : list Inst -> Prop :=
| P_marker : (ss_last st <> Some Idam \/ mk = Iam) ->
    pushed m st mk off sid' [mkInst (ElMarker mk) off (off + 64) (Some (sid_chsn sid')) false]
| P_missing : ss_last st = Some Idam -> mk = Idam ->
    pushed m st mk off sid'
      [mkInst (ElHeader (sid_chsn (ss_sid st)) (negb (sid_valid (ss_sid st))) true) (ss_off st) off None false;
       mkInst (ElMarker mk) off (off + 64) (Some (sid_chsn sid')) false]
| P_data de : ss_last st = Some Idam -> mk = Dam \/ mk = Ddam -> sid' = ss_sid st ->
    pushed m st mk off sid'
      [mkInst (ElHeader (sid_chsn (ss_sid st)) (negb (sid_valid (ss_sid st))) false) (ss_off st) off None false;
       mkInst (ElData (sid_chsn (ss_sid st)) (negb (sid_valid (ss_sid st))) de
                 (match mk with Ddam => true | _ => false end)) off
              (off + 64 + 16 * n_size (sid_chsn (ss_sid st))) (Some (sid_chsn (ss_sid st))) false;
       mkInst (ElMarker mk) off (off + 64) (Some (sid_chsn sid')) false].

Lemma sid_size_chsn s : sid_size s = n_size (sid_chsn s).
Proof. reflexivity. Qed.
Lemma scan_step_inv rnd st mk off st' : scan_step rnd st (mk, off) = Ok st' ->
  exists new, ss_elems st' = ss_elems st ++ new /\ pushed (ss_m st) st mk off (ss_sid st') new /\
    ss_last st' = Some mk /\ ss_off st' = off /\ moved (ss_m st) (ss_m st') /\
    (mk = Idam -> read_header rnd (ss_m st) off = Ok (ss_sid st')) /\ (mk <> Idam -> ss_sid st' = ss_sid st).
Proof.
  unfold scan_step.
  destruct mk.
  - destruct (ss_last st) as [[]|] eqn:El; cbn [obind]; intros E; injection E as <-; cbn [ss_elems ss_last ss_off ss_m ss_sid];
      (eexists; split; [reflexivity|]; split; [apply P_marker; auto|]; repeat split; auto using moved_refl; congruence).
  - assert (H : forall o, (let! (elems, sid', m) := o in Ok (mkScanState (elems ++ [mkInst (ElMarker Idam) off (off + 4 * MFM_BYTE_LEN) (Some (sid_chsn sid')) false])
                  (Some Idam) sid' off m)) = Ok st' -> exists e s m, o = Ok (e, s, m) /\
         st' = mkScanState (e ++ [mkInst (ElMarker Idam) off (off + 4 * MFM_BYTE_LEN) (Some (sid_chsn s)) false]) (Some Idam) s off m).
    { intros [[[e s] m]| |]; cbn [obind]; try discriminate. intros E; injection E as <-. eauto 6. }
    intros E. destruct (read_header rnd (ss_m st) off) as [ns| |] eqn:Eh.
    2,3: destruct (ss_last st) as [[]|]; cbn [obind] in E; discriminate E.
    destruct (ss_last st) as [[]|] eqn:El; cbn [obind] in E; injection E as <-; cbn [ss_elems ss_last ss_off ss_m ss_sid].
    2: { eexists; split; [rewrite <- app_assoc; reflexivity|]. split; [apply P_missing; auto|]. repeat split; auto using moved_refl; congruence. }
    all: eexists; split; [reflexivity|]; split; [apply P_marker; left; congruence|]; repeat split; auto using moved_refl; congruence.
  - destruct (ss_last st) as [[]|] eqn:El; cbn [obind].
    2: { destruct (read_decoded_buf rnd (ss_m st) 4 off) as [x| |]; cbn [obind]; try discriminate.
      destruct (s34_crc16 rnd (ss_m st) off _) as [[[rec calc] m]| |] eqn:Ec; cbn [obind]; try discriminate.
      intros E; injection E as <-. cbn [ss_elems ss_last ss_off ss_m ss_sid]. eexists; split; [rewrite <- app_assoc; reflexivity|].
      split; [|repeat split; auto; [eapply crc16_moved; eauto|discriminate]].
      rewrite sid_size_chsn. unfold MFM_MARKER_LEN, MFM_BYTE_LEN. rewrite (Nat.mul_comm _ 16).
      apply (P_data (ss_m st) st Dam off _ _ El); auto. }
    all: intros E; injection E as <-; cbn [ss_elems ss_last ss_off ss_m ss_sid];
      eexists; split; [reflexivity|]; split; [apply P_marker; left; congruence|]; repeat split; auto using moved_refl; congruence.
  - destruct (ss_last st) as [[]|] eqn:El; cbn [obind].
    2: { destruct (read_decoded_buf rnd (ss_m st) 4 off) as [x| |]; cbn [obind]; try discriminate.
      destruct (s34_crc16 rnd (ss_m st) off _) as [[[rec calc] m]| |] eqn:Ec; cbn [obind]; try discriminate.
      intros E; injection E as <-. cbn [ss_elems ss_last ss_off ss_m ss_sid]. eexists; split; [rewrite <- app_assoc; reflexivity|].
      split; [|repeat split; auto; [eapply crc16_moved; eauto|discriminate]].
      rewrite sid_size_chsn. unfold MFM_MARKER_LEN, MFM_BYTE_LEN. rewrite (Nat.mul_comm _ 16).
      apply (P_data (ss_m st) st Ddam off _ _ El); auto. }
    all: intros E; injection E as <-; cbn [ss_elems ss_last ss_off ss_m ss_sid];
      eexists; split; [reflexivity|]; split; [apply P_marker; left; congruence|]; repeat split; auto using moved_refl; congruence.
Qed.

Lemma scan_fold_moved rnd L st st' : ofold (scan_step rnd) L st = Ok st' -> moved (ss_m st) (ss_m st').
Proof.
  apply (ofold_inv (fun a b => moved (ss_m a) (ss_m b))).
  - intros; apply moved_refl.
  - intros ? ? ?; apply moved_trans.
  - intros s [mk off] s' E. apply scan_step_inv in E as (? & _ & _ & _ & _ & H & _). exact H.
Qed.
Lemma scan_metadata_moved rnd m L items m' : scan_metadata rnd m L = Ok (items, m') -> moved m m'.
Proof.
  unfold scan_metadata. destruct (ofold _ _ _) as [st| |] eqn:E; cbn [obind]; try discriminate.
  intros E'; injection E' as _ <-. apply scan_fold_moved in E. exact E.
Qed.

(* ---- clock map keeps its length ---- *)
Lemma bits_set_length l i b l' : bits_set l i b = Ok l' -> length l' = length l.
Proof. unfold bits_set. destruct (i <? length l); [|discriminate]. intros E; injection E as <-. apply upd_length. Qed.
Lemma alternate_length cm a b cm' : alternate cm a b = Ok cm' -> length cm' = length cm.
Proof.
  unfold alternate. intros E. apply (ofold_inv (fun a b => length b = length a)) in E; auto; [congruence|].
  intros s x s'. destruct (bits_set s x true) as [s1| |] eqn:E1; cbn [obind]; try discriminate.
  intros E2. apply bits_set_length in E1, E2. congruence.
Qed.
Lemma clock_map_length L cm cm' : create_clock_map L cm = Ok cm' -> length cm' = length cm.
Proof.
  unfold create_clock_map.
  match goal with |- obind ?e _ = _ -> _ => destruct e as [[c1 last]| |] eqn:E1 end; cbn [obind]; try discriminate.
  apply (ofold_inv (fun a b => length (fst b) = length (fst a))) in E1; auto; [|congruence|].
  2: { intros [s k] [x b] [s' k']. destruct (0 <? k).
       - destruct (bits_set s (k - 1) false) as [s1| |] eqn:B1; cbn [obind]; try discriminate.
         destruct (alternate s1 k b) as [s2| |] eqn:B2; cbn [obind]; try discriminate. intros E; injection E as <- _. cbn [fst].
         apply bits_set_length in B1. apply alternate_length in B2. congruence.
       - intros E; injection E as <- _. reflexivity. }
  cbn [fst] in E1.
  match goal with |- obind ?e _ = _ -> _ => destruct e as [c2| |] eqn:E2 end; cbn [obind]; try discriminate.
  assert (length c2 = length c1).
  { destruct (0 <? last); [apply bits_set_length in E2; auto|injection E2 as <-; auto]. }
  destruct (length c2 =? 0); [discriminate|]. intros E. apply alternate_length in E. congruence.
Qed.

(* ---- tracks created from bit data without a weak mask ---- *)
Lemma circ_repeat_false n i : circ (repeat false n) i = false.
Proof.
  unfold circ. set (k := i mod _). destruct (Nat.lt_ge_cases k n).
  - apply nth_repeat.
  - apply nth_overflow. rewrite repeat_length. exact H.
Qed.
Lemma mfm_new_fmt bits ct m : mfm_new bits ct None = Ok m -> mfm_len m <> 0 ->
  plain (m_bits m) /\ plain (m_weak m) /\ (forall i, circ (r_bits (m_weak m)) i = false) /\ clock_fits m.
Proof.
  unfold mfm_new. set (b := match ct with Some n => firstn n bits | None => bits end).
  rewrite repeat_length, Nat.ltb_irrefl. intros E; injection E as <-. unfold mfm_len, ring_len. cbn [m_bits m_weak m_clock ring_from r_bits].
  intros Hn. split; [|split; [|split]].
  - repeat split; cbn [ring_from r_bits r_wrap r_wrapv]; auto. lia.
  - repeat split; cbn [ring_from r_bits r_wrap r_wrapv]; rewrite ?repeat_length; auto. lia.
  - intros i. apply circ_repeat_false.
  - constructor; cbn [m_clock ring_from ring_set_wrap_value r_bits r_wrap r_wrapv]; rewrite ?repeat_length; auto.
Qed.
Lemma formattable_parts t : plain (m_bits (bt_data t)) -> plain (m_weak (bt_data t)) ->
  (forall i, circ (r_bits (m_weak (bt_data t))) i = false) -> clock_fits (bt_data t) -> formattable t.
Proof. intros. constructor; auto. Qed.

Lemma new_cells rnd ch data ct t : bt_new rnd ch data None ct false = Ok t ->
  exists m bits, mfm_new bits ct None = Ok m /\
    (data <> [] -> bits = flat_map byte_bits data) /\
    (data = [] -> exists n, ct = Some n /\ bits = map (fun i => i mod 2 =? 0) (seq 0 n)) /\
    m_bits (bt_data t) = m_bits m /\ m_weak (bt_data t) = m_weak m /\ m_weak_enabled (bt_data t) = m_weak_enabled m /\
    bt_ch t = ch /\
    (scan_markers m = Ok [] /\ bt_data t = m /\ bt_meta t = meta_default /\ bt_schema t = false \/
     exists L cm items m', scan_markers m = Ok L /\ L <> [] /\ create_clock_map L (r_bits (m_clock m)) = Ok cm /\
       scan_metadata rnd (set_clock_bits m cm) L = Ok (items, m') /\ bt_meta t = meta_new items /\ bt_schema t = true /\
       bt_data t = match data_ranges (meta_new items) with [] => m' | rs => set_data_ranges m' rs end).
Proof.
  unfold bt_new. cbn [option_map].
  match goal with |- obind ?e _ = _ -> _ => destruct e as [bits| |] eqn:Eb end; cbn [obind]; try discriminate.
  destruct (mfm_new bits ct None) as [m| |] eqn:Em; cbn [obind]; try discriminate.
  destruct (scan_markers m) as [L| |] eqn:EL; cbn [obind]; try discriminate. intros E. exists m, bits. split; [auto|].
  split; [|split].
  - intros Hd. destruct data; [congruence|]. injection Eb as <-. reflexivity.
  - intros ->. destruct ct; [|discriminate]. injection Eb as <-. eauto.
  - destruct L as [|x L].
    + injection E as <-. cbn [bt_data bt_ch bt_schema bt_meta]. repeat (split; [reflexivity|]). left; auto.
    + destruct (create_clock_map _ _) as [cm| |] eqn:Ec; cbn [obind] in E; try discriminate.
      destruct (scan_metadata _ _ _) as [[items m']| |] eqn:Es; cbn [obind] in E; try discriminate.
      injection E as <-. cbn [bt_data bt_ch bt_schema bt_meta].
      assert (H : moved (set_clock_bits m cm) m') by (eapply scan_metadata_moved; eauto). destruct H as [c Hc].
      assert (HH : m_bits (match data_ranges (meta_new items) with [] => m' | rs => set_data_ranges m' rs end) = m_bits m /\
                  m_weak (match data_ranges (meta_new items) with [] => m' | rs => set_data_ranges m' rs end) = m_weak m /\
                  m_weak_enabled (match data_ranges (meta_new items) with [] => m' | rs => set_data_ranges m' rs end) = m_weak_enabled m)
        by (destruct (data_ranges _); rewrite Hc; auto).
      destruct HH as (-> & -> & ->). repeat (split; [reflexivity|]). right.
      exists (x :: L), cm, items, m'. repeat split; auto. discriminate.
Qed.
Lemma new_formattable rnd ch data ct t : bt_new rnd ch data None ct false = Ok t -> mfm_len (bt_data t) <> 0 -> formattable t.
Proof.
  intros H Hl. destruct (new_cells _ _ _ _ _ H) as (m & bits & Em & _ & _ & E1 & E2 & E3 & _ & D).
  assert (Hl' : mfm_len m <> 0) by (unfold mfm_len in *; rewrite <- E1; auto).
  destruct (mfm_new_fmt _ _ _ Em Hl') as (P1 & P2 & P3 & P4).
  apply formattable_parts; rewrite ?E1, ?E2; auto.
  destruct D as [(_ & -> & _)|(L & cm & items & m' & _ & _ & Ec & Es & _ & _ & ->)]; auto.
  apply clock_ranges_opt. apply scan_metadata_moved in Es as [c ->]. apply clock_map_length in Ec.
  destruct P4 as [A B C]. constructor; cbn [with_cursor set_clock_bits with_clock m_clock r_bits r_wrap r_wrapv]; try congruence.
  change (mfm_len _) with (mfm_len m). rewrite Ec. exact C.
Qed.

(* A blank track always has no marks: its cells are 1010... *)
Lemma blank_cells_mfm n : map (fun i => i mod 2 =? 0) (seq 0 n) = firstn n (mfm false (repeat false n)).
Proof.
  apply nth_ext with (d := false) (d' := false).
  - rewrite map_length, seq_length, firstn_length, mfm_length, repeat_length. lia.
  - intros i Hi. rewrite map_length, seq_length in Hi.
    transitivity ((fun i => i mod 2 =? 0) (nth i (seq 0 n) 1)); [exact (map_nth (fun i => i mod 2 =? 0) (seq 0 n) 1 i)|].
    cbv beta. rewrite seq_nth by lia. cbn [plus].
    assert (E : nth i (firstn n (mfm false (repeat false n))) false = nth i (mfm false (repeat false n)) false).
    { rewrite <- (firstn_skipn n (mfm false (repeat false n))) at 2. rewrite app_nth1; auto.
      rewrite firstn_length, mfm_length, repeat_length. lia. }
    rewrite E. destruct (even_odd_split i) as [k [-> | ->]].
    + rewrite mfm_nth_clock by (rewrite repeat_length; lia). rewrite nth_repeat.
      replace (2 * k) with (k * 2) by lia. rewrite Nat.mod_mul by lia. destruct k; [reflexivity|]. cbn [nth]. rewrite nth_repeat. reflexivity.
    + rewrite mfm_nth_data, nth_repeat. rewrite Nat.add_comm, Nat.mul_comm, Nat.mod_add by lia. reflexivity.
Qed.
Lemma occurs_firstn l n mask pat p : occurs (firstn n l) mask pat p -> occurs l mask pat p.
Proof.
  intros [H1 H2]. rewrite firstn_length in H1. split; [lia|]. rewrite <- H2. unfold win64, slice. f_equal. f_equal.
  rewrite skipn_firstn_comm, firstn_firstn. f_equal. lia.
Qed.
Lemma no_markers_scan m : plain (m_bits m) -> (forall p, ~ occurs (mfm_data m) A1_MASK A1_PAT p) ->
  (forall p, ~ occurs (mfm_data m) A1_MASK C2_PAT p) -> scan_markers m = Ok [].
Proof.
  intros Hp Ha Hc. unfold scan_markers, s34_find_marker.
  assert (E : find_marker m (marker64 (marker_u64 Iam)) 0 (Some 5000) = Ok None).
  { apply find_marker_none; auto. intros q _ _ Ho. apply (Hc q). eapply occurs_mask in Ho; [exact Ho|reflexivity]. }
  rewrite E. cbn [obind scan_loop]. unfold find_next_marker.
  assert (E2 : find_marker m (mkMarker ANY_MARKER MARKER_MASK 64) 0 None = Ok None).
  { apply find_marker_none; auto. intros q _ _ Ho. apply (Ha q). exact Ho. }
  rewrite E2. reflexivity.
Qed.
Lemma blank_new rnd ch n : n <> 0 -> exists t, bt_new rnd ch [] None (Some n) false = Ok t /\ mfm_len (bt_data t) = n /\
  bt_meta t = meta_default /\ bt_schema t = false /\ bt_ch t = ch /\ formattable t.
Proof.
  intros Hn.
  assert (HH : exists m, mfm_new (map (fun i => i mod 2 =? 0) (seq 0 n)) (Some n) None = Ok m /\ mfm_data m = map (fun i => i mod 2 =? 0) (seq 0 n)).
  { unfold mfm_new. rewrite repeat_length, Nat.ltb_irrefl. eexists; split; [reflexivity|]. unfold mfm_data. cbn [m_bits ring_from r_bits].
    apply firstn_all2. rewrite map_length, seq_length. lia. }
  destruct HH as (m & Em & Ed).
  assert (Hl : mfm_len m = n) by (unfold mfm_len, ring_len; fold (mfm_data m); rewrite Ed, map_length, seq_length; reflexivity).
  destruct (mfm_new_fmt _ _ _ Em) as (P1 & P2 & P3 & P4); [lia|].
  assert (Es : scan_markers m = Ok []).
  { apply no_markers_scan; auto; rewrite Ed, blank_cells_mfm; intros p Ho; apply occurs_firstn in Ho.
    - eapply no_a1_in_data; exact Ho. - eapply no_c2_in_data; exact Ho. }
  assert (En : bt_new rnd ch [] None (Some n) false = Ok (mkTrack ch m meta_default false)).
  { unfold bt_new. cbn [obind option_map]. rewrite Em. cbn [obind]. rewrite Es. reflexivity. }
  eexists. split; [exact En|]. repeat (split; [auto|]). eapply new_formattable; [exact En|]. cbn [bt_data]. lia.
Qed.

(* ---- markers are found in increasing order, inside the track ---- *)
Fixpoint spaced_from (n : nat) (L : list MarkerItem) : Prop :=
  match L with [] => True | (_, o) :: t => n <= o /\ spaced_from (o + 64) t end.
Lemma spaced_from_app L k o : forall n, spaced_from n L -> (forall x, In x L -> snd x + 64 <= o) -> n <= o -> spaced_from n (L ++ [(k, o)]).
Proof.
  induction L as [|[a b] L IH]; intros n H1 H2 Hn; cbn [app spaced_from] in *; auto.
  split; [tauto|]. apply IH; [tauto|intros; apply H2; right; auto|apply (H2 (a, b)); left; auto].
Qed.
Lemma scan_loop_inv m : plain (m_bits m) -> forall fuel c acc L, scan_loop fuel m c acc = Ok L ->
  spaced_from 0 acc -> (forall x, In x acc -> snd x + 64 <= c) -> (forall x, In x acc -> snd x + 64 <= mfm_len m) ->
  spaced_from 0 L /\ forall x, In x L -> snd x + 64 <= mfm_len m.
Proof.
  intros Hp. induction fuel as [|f IH]; intros c acc L; cbn [scan_loop]; [discriminate|].
  unfold find_next_marker. destruct (find_marker m _ c None) as [[[idx v]|]| |] eqn:Ef; cbn [obind]; try discriminate.
  2: { intros E; injection E as <-. auto. }
  destruct (marker_of_u16 v) as [k|]; cbn [option_map]; [|intros E; injection E as <-; auto].
  apply find_marker_some in Ef; auto. destruct Ef as ((H1 & _ & (H2 & _) & _) & _ & _).
  intros E A1 A2 A3. apply IH in E; auto.
  - apply spaced_from_app; auto; [|lia]. intros x Hx. specialize (A2 x Hx). lia.
  - intros x Hx. apply in_app_or in Hx as [Hx|[<-|[]]]; [specialize (A2 x Hx); unfold MFM_BYTE_LEN; lia|]. cbn [snd]. unfold MFM_BYTE_LEN. lia.
  - intros x Hx. apply in_app_or in Hx as [Hx|[<-|[]]]; auto.
Qed.
Lemma scan_markers_inv m L : plain (m_bits m) -> scan_markers m = Ok L ->
  spaced_from 0 L /\ forall x, In x L -> snd x + 64 <= mfm_len m.
Proof.
  intros Hp. unfold scan_markers, s34_find_marker.
  destruct (find_marker m _ 0 (Some 5000)) as [[[p v]|]| |] eqn:Ef; cbn [obind]; try discriminate.
  - apply find_marker_some in Ef; auto. destruct Ef as ((H1 & _ & (H2 & _) & _) & _ & _). intros E. eapply scan_loop_inv in E; eauto.
    + cbn [spaced_from]. auto.
    + intros x [<-|[]]. cbn [snd]. unfold MFM_BYTE_LEN. lia.
    + intros x [<-|[]]. exact H2.
  - intros E. eapply scan_loop_inv in E; eauto; cbn [spaced_from]; auto; intros x [].
Qed.

(* ---- structure of the scanned element list ---- *)
(* Markers, headers without data, and pairs of a header and the data that follows it. *)
Inductive wf_items : list Inst -> Prop :=
| W_nil : wf_items []
| W_marker i l : (exists k, i_elem i = ElMarker k) -> wf_items l -> wf_items (i :: l)
| W_missing i l c ae : i_elem i = ElHeader c ae true -> wf_items l -> wf_items (i :: l)
| W_pair h d l c ae de del : i_elem h = ElHeader c ae false -> i_elem d = ElData c ae de del ->
    i_end h = i_start d -> i_start h < i_start d -> i_end d = i_start d + 64 + 16 * n_size c -> wf_items l -> wf_items (h :: d :: l).
Lemma wf_items_app a b : wf_items a -> wf_items b -> wf_items (a ++ b).
Proof. induction 1; intros Hb; cbn [app]; auto; [apply W_marker|eapply W_missing|eapply W_pair]; eauto. Qed.

Lemma nondecr_app {A} (key : A -> N) l l' : forall b, nondecr key b l -> (forall c, (c = b \/ exists x, In x l /\ c = key x) -> nondecr key c l') -> nondecr key b (l ++ l').
Proof.
  induction l as [|x l IH]; intros b H H'; cbn [app nondecr] in *; [apply H'; auto|].
  destruct H as [H1 H2]. split; [auto|]. apply IH; auto. intros c [->|(y & Hy & ->)]; apply H'; right; [exists x; cbn [In]; auto|exists y; cbn [In]; auto].
Qed.
Record scan_inv (n : nat) (st : ScanState) : Prop := mkSI {
  si_wf : wf_items (ss_elems st);
  si_sorted : nondecr (fun i => N.of_nat (i_start i)) 0 (ss_elems st);
  si_bound : forall i, In i (ss_elems st) -> i_start i <= ss_off st;
  si_next : ss_last st = None \/ ss_off st + 64 <= n }.
Lemma scan_fold_inv rnd L : forall n st st', ofold (scan_step rnd) L st = Ok st' -> spaced_from n L -> scan_inv n st ->
  (ss_last st = None -> ss_off st = 0) ->
  exists n', scan_inv n' st' /\ (ss_last st' = None -> ss_off st' = 0).
Proof.
  induction L as [|[mk off] L IH]; intros n st st'; cbn [ofold spaced_from].
  { intros E; injection E as <-. eauto. }
  destruct (scan_step rnd st (mk, off)) as [st1| |] eqn:E1; cbn [obind]; try discriminate.
  intros E [Hn HL] [W S B X] H0. eapply IH; eauto.
  - apply scan_step_inv in E1 as (new & Ee & P & El & Eo & _).
    assert (Hlt : ss_last st = Some Idam -> ss_off st < off) by (intros Q; destruct X as [X|X]; [congruence|lia]).
    assert (Hle : ss_off st <= off) by (destruct X as [X|X]; [rewrite (H0 X); lia|lia]).
    constructor; rewrite ?Ee, ?Eo.
    + apply wf_items_app; auto. destruct P.
      * apply W_marker; [eexists; reflexivity|constructor].
      * eapply W_missing; [reflexivity|]. apply W_marker; [eexists; reflexivity|constructor].
      * eapply W_pair; try reflexivity; cbn [i_start i_end]; auto. apply W_marker; [eexists; reflexivity|constructor].
    + apply nondecr_app; auto. intros c Hc.
      assert (Hc' : (c <= N.of_nat (ss_off st))%N).
      { destruct Hc as [->|(x & Hx & ->)]; [lia|]. specialize (B x Hx). lia. }
      destruct P; cbn [nondecr i_start]; repeat split; lia.
    + intros i Hi. apply in_app_or in Hi as [Hi|Hi]; [specialize (B i Hi); lia|].
      destruct P; cbn [In] in Hi; repeat (destruct Hi as [<-|Hi]; [cbn [i_start]; lia|]); destruct Hi.
    + right. lia.
  - apply scan_step_inv in E1 as (new & Ee & P & El & Eo & _). rewrite El. discriminate.
Qed.
Lemma wf_items_set_last l : wf_items l -> wf_items (map_last set_last l).
Proof.
  induction 1 as [|i l Hk Hl IH|i l c ae Hi Hl IH|h d l c ae de del Hh Hd He Hs Hz Hl IH].
  - constructor.
  - destruct l as [|y l] using rev_ind.
    + change [i] with ([] ++ [i]). rewrite map_last_snoc. apply W_marker; [exact Hk|constructor].
    + rewrite app_comm_cons, map_last_snoc. rewrite map_last_snoc in IH. apply W_marker; auto.
  - destruct l as [|y l] using rev_ind.
    + change [i] with ([] ++ [i]). rewrite map_last_snoc. eapply W_missing; [exact Hi|constructor].
    + rewrite app_comm_cons, map_last_snoc. rewrite map_last_snoc in IH. eapply W_missing; eauto.
  - destruct l as [|y l] using rev_ind.
    + change [h; d] with ([h] ++ [d]). rewrite map_last_snoc. eapply W_pair; eauto; constructor.
    + rewrite 2 app_comm_cons, map_last_snoc. rewrite map_last_snoc in IH. cbn [app]. eapply W_pair; eauto.
Qed.
(* Whatever the bitstream and the (spaced) markers, the scan yields a well formed element list. *)
Theorem scan_metadata_wf rnd m L items m' : spaced_from 0 L -> scan_metadata rnd m L = Ok (items, m') -> wf_items items.
Proof.
  intros HL. unfold scan_metadata. destruct (ofold _ _ _) as [st| |] eqn:E; cbn [obind]; try discriminate.
  intros E'; injection E' as <- _.
  eapply scan_fold_inv in E as (n' & [W S B X] & _); eauto; [|constructor; cbn; auto; try contradiction; constructor].
  apply wf_items_set_last. destruct (ss_last st) as [[]|] eqn:El; rewrite ?sort_sorted; auto.
  - apply wf_items_app; auto. eapply W_missing; [reflexivity|constructor].
  - apply nondecr_app; auto. intros c Hc. cbn [nondecr i_start]. split; [|auto].
    destruct Hc as [->|(x & Hx & ->)]; [lia|]. specialize (B x Hx). lia.
Qed.

(* the two ways an element is found *)
Inductive found_in (q : DiskChsnQuery) (index : nat) (items : list Inst) : nat -> ScanResult -> Prop :=
| F_data k h d c de del b : nth_error items k = Some h -> nth_error items (S k) = Some d ->
    i_elem h = ElHeader c false false -> i_elem d = ElData c false de del ->
    i_end h = i_start d -> i_end d = i_start d + 64 + 16 * n_size c -> index <= i_start h -> query_matches q c = true ->
    found_in q index items (S k) (Found (S k) c false de del false b)
| F_header k h c ae dm b : nth_error items k = Some h -> i_elem h = ElHeader c ae dm -> (ae || dm)%bool = true ->
    index <= i_start h -> chsn_s c = q_s q ->
    found_in q index items k (Found k c ae false false dm b).
Definition shift_found (n : nat) (r : ScanResult) : ScanResult :=
  match r with Found k c ae de del dm b => Found (n + k) c ae de del dm b | r => r end.
Lemma find_elem_shift q index : forall items ei wc bc wh mt,
  find_elem_loop q index items ei wc bc wh mt = shift_found ei (find_elem_loop q index items 0 wc bc wh mt).
Proof.
  assert (G : forall items ei d wc bc wh mt, find_elem_loop q index items (ei + d) wc bc wh mt = shift_found ei (find_elem_loop q index items d wc bc wh mt)).
  { induction items as [|i t IH]; intros ei d wc bc wh mt; cbn [find_elem_loop]; [reflexivity|].
    replace (S (ei + d)) with (ei + S d) by lia.
    destruct (i_start i <? index); [apply IH|]. destruct (i_elem i); [apply IH| |].
    - destruct (chsn_s chsn =? q_s q)%N; [|apply IH]. destruct (address_error || data_missing); [reflexivity|apply IH].
    - destruct mt; [reflexivity|apply IH]. }
  intros. rewrite <- (Nat.add_0_r ei) at 1. apply G.
Qed.
Lemma found_in_skip q index x items k r : found_in q index items k r -> found_in q index (x :: items) (S k) (shift_found 1 r).
Proof. destruct 1; cbn [shift_found plus]; econstructor; eauto. Qed.
Lemma find_elem_found q index items : wf_items items -> forall wc bc wh k c ae de del dm b,
  find_elem_loop q index items 0 wc bc wh false = Found k c ae de del dm b ->
  found_in q index items k (Found k c ae de del dm b).
Proof.
  induction 1 as [|i l [mk Hk] Hl IH|i l c0 ae0 Hi Hl IH|h d l c0 ae0 de0 del0 Hh Hd He Hs Hz Hl IH]; intros wc bc wh k c ae de del dm b; cbn [find_elem_loop].
  - discriminate.
  - assert (G : find_elem_loop q index l 1 wc bc wh false = Found k c ae de del dm b -> found_in q index (i :: l) k (Found k c ae de del dm b)).
    { rewrite find_elem_shift. destruct (find_elem_loop q index l 0 wc bc wh false) as [k' ? ? ? ? ? ?|] eqn:E; cbn [shift_found]; [|discriminate].
      intros E'. injection E' as <- <- <- <- <- <- <-. apply IH in E. apply (found_in_skip q index i) in E. exact E. }
    rewrite Hk. destruct (i_start i <? index); exact G.
  - assert (G : forall wc bc wh, find_elem_loop q index l 1 wc bc wh false = Found k c ae de del dm b -> found_in q index (i :: l) k (Found k c ae de del dm b)).
    { intros wc' bc' wh'. rewrite find_elem_shift. destruct (find_elem_loop q index l 0 wc' bc' wh' false) as [k' ? ? ? ? ? ?|] eqn:E; cbn [shift_found]; [|discriminate].
      intros E'. injection E' as <- <- <- <- <- <- <-. apply IH in E. apply (found_in_skip q index i) in E. exact E. }
    rewrite Hi. destruct (Nat.ltb_spec (i_start i) index); [apply G|].
    destruct (N.eqb_spec (chsn_s c0) (q_s q)); [|apply G]. rewrite orb_true_r. intros E'. injection E' as <- <- <- <- <- <- <-.
    eapply F_header; try reflexivity; eauto. apply orb_true_r.
  - assert (G : forall wc bc wh, find_elem_loop q index l 2 wc bc wh false = Found k c ae de del dm b -> found_in q index (h :: d :: l) k (Found k c ae de del dm b)).
    { intros wc' bc' wh'. rewrite find_elem_shift. destruct (find_elem_loop q index l 0 wc' bc' wh' false) as [k' ? ? ? ? ? ?|] eqn:E; cbn [shift_found]; [|discriminate].
      intros E'. injection E' as <- <- <- <- <- <- <-. apply IH in E. apply (found_in_skip q index d) in E. apply (found_in_skip q index h) in E. exact E. }
    assert (G2 : forall wc bc wh, (if i_start d <? index then find_elem_loop q index l 2 wc bc wh false else
       match i_elem d with ElMarker _ => find_elem_loop q index l 2 wc bc wh false
        | ElHeader chsn ae dm => if (chsn_s chsn =? q_s q)%N then
              let bc := if (chsn_c chsn =? 0xFF)%N then true else bc in
              let wc := if opt_ne (q_c q) (chsn_c chsn) then true else wc in
              let wh := if opt_ne (q_h q) (chsn_h chsn) then true else wh in
              if ae || dm then Found 1 chsn ae false false dm (i_last d)
              else find_elem_loop q index l 2 wc bc wh (query_matches q chsn)
            else find_elem_loop q index l 2 wc bc wh false
        | ElData _ _ _ _ => find_elem_loop q index l 2 wc bc wh false end) = Found k c ae de del dm b -> found_in q index (h :: d :: l) k (Found k c ae de del dm b)).
    { intros wc' bc' wh'. rewrite Hd. destruct (i_start d <? index); apply G. }
    rewrite Hh. destruct (Nat.ltb_spec (i_start h) index) as [Hx|Hx].
    { intros E'. apply (G2 wc bc wh). rewrite Hd in *. exact E'. }
    destruct (N.eqb_spec (chsn_s c0) (q_s q)) as [Hq|Hq].
    2: { intros E'. apply (G2 wc bc wh). rewrite Hd in *. exact E'. }
    destruct ae0; cbn [orb].
    { intros E'. injection E' as <- <- <- <- <- <- <-. eapply F_header; try reflexivity; eauto. }
    destruct (Nat.ltb_spec (i_start d) index) as [Hy|Hy]; [exfalso; lia|]. rewrite Hd.
    destruct (query_matches q c0) eqn:Em; [|apply G].
    intros E'. injection E' as <- <- <- <- <- <- <-. apply (F_data q index (h :: d :: l) 0 h d); auto.
Qed.
