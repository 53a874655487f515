(* Total_proofs.v - building a bit track from any cells: nothing fails but a mark at the very first cell. *)
From Verif Require Import Base Base_lemmas Chs_model BitRing_model BitRing_proofs Mfm_model Mfm_spec Mfm_proofs Marker_proofs Codec_lemmas
  Crc_model Crc16_proofs Types_model System34_model System34_spec Stream_proofs S34_layout_proofs S34_format_proofs S34_scan_proofs S34_clock_proofs
  S34_meta_proofs BitStream_model S34_track_proofs S34_ops_proofs S34_write_proofs TreeMap_proofs MetaSector_proofs MetaSector_spec BitStream_spec
  Bs_general_proofs Bs_history_proofs Bs_write_proofs Bs_api_proofs Bs_loaded_proofs OddEven_proofs.
From Coq Require Import Lia.

(* a codec every read of which succeeds *)
Definition sound (m : Mfm) : Prop := mfm_wf m /\ r_bits (m_weak m) <> [].
Lemma sound_cursor m c : sound m -> sound (with_cursor m c).
Proof. intros H. exact H. Qed.
Lemma weak_plain m : sound m -> plain (m_weak m).
Proof. intros [(_ & _ & _ & [H|H]) N]; [contradiction|exact H]. Qed.
Lemma next_total rnd m : sound m -> exists b c, mfm_next rnd m = Ok (b, with_cursor m c).
Proof.
  intros H. unfold mfm_next. rewrite nudge_spec by exact (proj1 H). cbn [obind]. match goal with |- context [if negb ?a && ?b then ?x else ?y] => generalize (if negb a && b then x else y) end. intros c. rewrite (ring_get_plain (m_bits m)) by exact (proj1 (proj1 H)). rewrite (ring_get_plain (m_weak m)) by exact (weak_plain m H).
  destruct (m_weak_enabled m); cbn [obind]; [destruct (circ _ _); cbn [obind]|]; eexists; eexists; reflexivity.
Qed.
Lemma byte_total rnd : forall l m (v : N), sound m ->
  exists v' c, ofold (fun '(byte, m) (_ : nat) => let! (b, m') := mfm_next rnd m in Ok (as_u8 (2 * byte + b2N b), m')) l (v, m) = Ok (v', with_cursor m c).
Proof.
  induction l as [|x l IH]; intros m v H; cbn [ofold]; [exists v, (m_cursor m); rewrite with_cursor_same; reflexivity|].
  destruct (next_total rnd m H) as (b & c & E). rewrite E. cbn [obind]. destruct (IH (with_cursor m c) (as_u8 (2 * v + b2N b)) (sound_cursor _ _ H)) as (v' & c' & E'). exists v', c'. exact E'.
Qed.
Lemma read_total rnd : forall n m, sound m -> exists l c, mfm_read_loop rnd n m = Ok (l, with_cursor m c) /\ length l = n.
Proof.
  induction n as [|n IH]; intros m H; cbn [mfm_read_loop]; [exists [], (m_cursor m); rewrite with_cursor_same; split; reflexivity|].
  unfold mfm_read_byte. destruct (byte_total rnd (seq 0 8) m 0%N H) as (v & c & E). rewrite E. cbn [obind]. destruct (IH (with_cursor m c) (sound_cursor _ _ H)) as (l & c' & E' & L). rewrite E'. cbn [obind]. exists (v :: l), c'. split; [reflexivity|cbn [length]; lia].
Qed.
Lemma sound_nonempty m : sound m -> ring_is_empty (m_bits m) = false.
Proof. intros [(P & _) _]. destruct P as (_ & _ & L). unfold ring_is_empty. destruct (r_bits (m_bits m)); [cbn in L; lia|reflexivity]. Qed.
Lemma crc_total rnd m a b : sound m -> a <= b -> exists x y c, s34_crc16 rnd m a b = Ok (x, y, with_cursor m c).
Proof.
  intros H Hab. unfold s34_crc16. destruct (Nat.ltb_spec b a); [lia|]. cbv zeta. unfold mfm_seek_start, mfm_read. rewrite (sound_nonempty m H). rewrite nudge_spec by exact (proj1 H). cbn [obind]. match goal with |- context [if negb ?a && ?b then ?x else ?y] => generalize (if negb a && b then x else y) end. intros c.
  change (ring_is_empty (m_bits (with_cursor m c))) with (ring_is_empty (m_bits m)). rewrite (sound_nonempty m H). set (n := (b - a) / 16). destruct (read_total rnd (n + 2) (with_cursor m c) (sound_cursor _ _ H)) as (l & c' & E & L). rewrite E.
  rewrite !(oindex_nth _ _ 0%N) by lia. cbn [obind]. eexists. eexists. exists c'. reflexivity.
Qed.
Lemma decoded_total rnd m : sound m -> forall n off, exists l, read_decoded_buf rnd m n off = Ok l /\ length l = n.
Proof.
  intros H n off. unfold read_decoded_buf. enough (G : forall k acc, exists l, ofold (fun acc k => let! b := read_decoded_u8 rnd m (off + k * MFM_BYTE_LEN) in Ok (b :: acc)) k acc = Ok l /\ length l = length k + length acc).
  { destruct (G (seq 0 n) []) as (l & E & L). rewrite E. cbn [omap]. exists (rev l). split; [reflexivity|]. rewrite rev_length, L, seq_length. cbn. lia. }
  induction k as [|k ks IH]; intros acc; cbn [ofold]; [exists acc; split; reflexivity|]. rewrite read_decoded_u8_spec by exact (proj1 H). cbn [obind].
  match goal with |- exists l, ofold _ ks ?a = _ /\ _ => destruct (IH a) as (l & E & L) end. exists l. split; [exact E|]. cbn [length] in *. lia.
Qed.
Lemma header_total rnd m off : sound m -> exists s, read_header rnd m off = Ok s.
Proof.
  intros H. unfold read_header. destruct (decoded_total rnd m H 10 off) as (l & E & L). rewrite E. cbn [obind].
  destruct l as [|a [|b [|c [|d [|e [|f [|g [|h [|i [|j [|k l]]]]]]]]]]]; cbn in L; try lia. eexists. reflexivity.
Qed.
Lemma step_total rnd st item : sound (ss_m st) -> exists st', scan_step rnd st item = Ok st' /\ moved (ss_m st) (ss_m st').
Proof.
  intros H. destruct item as [mk off]. unfold scan_step.
  assert (K : forall r : outcome (list Inst * SectorId * Mfm), (exists e s m', r = Ok (e, s, m') /\ moved (ss_m st) m') ->
    exists st', (let! (elems, sid', m) := r in Ok (mkScanState (elems ++ [mkInst (ElMarker mk) off (off + 4 * MFM_BYTE_LEN) (Some (sid_chsn sid')) false]) (Some mk) sid' off m)) = Ok st' /\ moved (ss_m st) (ss_m st')).
  { intros r (e & s & m' & -> & M). cbn [obind]. eexists. split; [reflexivity|exact M]. }
  apply K. clear K.
  assert (KI : exists e s m', (let! nsid := read_header rnd (ss_m st) off in Ok (match ss_last st with Some Idam => ss_elems st ++ [mkInst (ElHeader (sid_chsn (ss_sid st)) (negb (sid_valid (ss_sid st))) true) (ss_off st) off None false] | _ => ss_elems st end, nsid, ss_m st)) = Ok (e, s, m') /\ moved (ss_m st) m').
  { destruct (header_total rnd (ss_m st) off H) as [s E]. rewrite E. cbn [obind]. eexists. eexists. eexists. split; [reflexivity|apply moved_refl]. }
  destruct (ss_last st) as [[]|]; destruct mk; try exact KI; try (eexists; eexists; eexists; split; [reflexivity|apply moved_refl]); clear KI;
    (destruct (decoded_total rnd (ss_m st) H 4 off) as (l & E & _); cbv zeta; rewrite E; cbn [obind]; destruct (crc_total rnd (ss_m st) off (off + MFM_MARKER_LEN + sid_size (ss_sid st) * MFM_BYTE_LEN) H ltac:(lia)) as (x & y & c & Ec); rewrite Ec; cbn [obind]; eexists; eexists; eexists; split; [reflexivity|exists c; reflexivity]).
Qed.
Lemma metadata_total rnd m L : sound m -> exists items m', scan_metadata rnd m L = Ok (items, m').
Proof.
  intros H. unfold scan_metadata. enough (G : forall L st, sound (ss_m st) -> exists st', ofold (scan_step rnd) L st = Ok st').
  { destruct (G L (mkScanState [] None sid_default 0 m) H) as [st E]. rewrite E. cbn [obind]. eexists. eexists. reflexivity. }
  clear. induction L as [|x L IH]; intros st H; cbn [ofold]; [eexists; reflexivity|]. destruct (step_total rnd st x H) as (st' & E & [c M]). rewrite E. cbn [obind]. apply IH. rewrite M. apply sound_cursor. exact H.
Qed.
Lemma clock_total L cm : L <> [] -> spaced_from 0 L -> (forall x, In x L -> 0 < snd x < length cm) -> exists cm', create_clock_map L cm = Ok cm'.
Proof.
  intros HN HL Hin. destruct L as [|[k x] L]; [contradiction|].
  cbn [spaced_from] in HL. destruct HL as [_ HL]. pose proof (Hin (k, x) (or_introl eq_refl)) as Hx. cbn [snd] in Hx.
  destruct (clock_fold_gen L cm x) as (cm1 & la & E & El & Hla & _); try lia; auto.
  { intros y Hy. apply Hin. right; auto. }
  assert (E0 : ofold clock_body ((k, x) :: L) (cm, 0) = Ok (cm1, la)) by exact E.
  assert (X : create_clock_map ((k, x) :: L) cm = obind (Ok (cm1, la)) (fun '(cm, last) =>
     let! cm := (if 0 <? last then bits_set cm (last - 1) false else Ok cm) in
     if length cm =? 0 then Panic else alternate cm last (length cm - 1)))
    by exact (f_equal (fun o => obind o (fun '(cm, last) =>
     let! cm := (if 0 <? last then bits_set cm (last - 1) false else Ok cm) in
     if length cm =? 0 then Panic else alternate cm last (length cm - 1))) E0).
  match type of X with _ = ?r => enough (G : exists cm', r = Ok cm') by (destruct G as [cm' G]; exists cm'; exact (eq_trans X G)) end. clear X E0 E. cbn [obind].
  destruct (Nat.ltb_spec 0 la); [|lia]. rewrite bits_set_ok by lia. cbn [obind].
  rewrite upd_length. destruct (Nat.eqb_spec (length cm1) 0); [lia|].
  pose proof (div2_le (length cm1 - 1 - la + 1)) as Hd.
  destruct (alternate_spec (upd cm1 (la - 1) false) la (length cm1 - 1)) as (cm3 & E3 & _); [lia|rewrite upd_length; lia|].
  exists cm3. exact E3.
Qed.
(* ---- the search for marks ---- *)
Definition win_is (l : list bool) (v : N) (p : nat) : Prop := occurs l mask64 v p.
Lemma find_total m mk start limit : plain (m_bits m) -> me_len mk = 64 -> 0 < start -> exists r, find_marker m mk start limit = Ok r.
Proof.
  intros P L S0. destruct (find_marker_spec m mk start limit P L) as [(q & (Hq & _) & E)|(_ & E)]; rewrite E; [|eexists; reflexivity]. destruct (Nat.eqb_spec q 0); [lia|]. eexists. reflexivity.
Qed.
Lemma loop_total m : plain (m_bits m) -> forall fuel c acc, 0 < c -> mfm_len m < fuel + c -> 0 < fuel -> exists L, scan_loop fuel m c acc = Ok L.
Proof.
  intros P. induction fuel as [|f IH]; intros c acc Hc Hf H0; [lia|]. cbn [scan_loop]. unfold find_next_marker. destruct (find_marker m (mkMarker ANY_MARKER MARKER_MASK 64) c None) as [[[idx v]|]| |] eqn:E; cbn [obind].
  - destruct (marker_of_u16 v) as [k|]; cbn [option_map]; [|eexists; reflexivity]. apply find_marker_some in E; [|exact P|reflexivity]. destruct E as ((A & B & (C & _) & _) & _). unfold mfm_data in C. fold (mfm_len m) in C. unfold MFM_BYTE_LEN. change (length (r_bits (m_bits m))) with (mfm_len m) in C. apply IH; lia.
  - eexists. reflexivity.
  - destruct (find_total m (mkMarker ANY_MARKER MARKER_MASK 64) c None P eq_refl Hc) as [r Er]. congruence.
  - destruct (find_total m (mkMarker ANY_MARKER MARKER_MASK 64) c None P eq_refl Hc) as [r Er]. congruence.
Qed.
Lemma iam_find_at0 m : plain (m_bits m) -> find_marker m (marker64 (marker_u64 Iam)) 0 (Some 5000) = Panic <-> win_is (mfm_data m) (marker_u64 Iam) 0.
Proof.
  intros P. rewrite find_marker_panic by (exact P || reflexivity). unfold win_is, search_lim, first_occ. split; [intros (_ & _ & H & _); exact H|]. intros H. split; [lia|]. split; [|split; [exact H|intros q; lia]]. destruct H as [H _]. unfold mfm_len, ring_len, mfm_data in *. lia.
Qed.
From Verif Require Import Total_spec.
Lemma index_iff l p : occurs l mask64 (marker_u64 Iam) p <-> index_mark_at l p.
Proof.
  unfold occurs, index_mark_at, win64. assert (H : forall n, (n < 2 ^ 64)%N -> N.land n mask64 = n) by (intros n Hn; change mask64 with (N.ones 64); rewrite N.land_ones; apply N.mod_small; exact Hn).
  split; intros [A B]; (split; [exact A|]); rewrite H in * by (pose proof (bits_val_lt (slice l p 64)) as X; rewrite slice_length in X by exact A; exact X); exact B.
Qed.
Lemma address_iff l p : occurs l MARKER_MASK ANY_MARKER p <-> address_mark_at l p.
Proof.
  unfold occurs, address_mark_at, win64. assert (W : p + 64 <= length l -> (bits_val (slice l p 64) < 2 ^ 64)%N) by (intros A; pose proof (bits_val_lt (slice l p 64)) as X; rewrite slice_length in X by exact A; exact X).
  assert (Sp : p + 64 <= length l -> (bits_val (slice l p 64) = bits_val (slice l p 48) * 2 ^ 16 + bits_val (slice l (p + 48) 16))%N /\ (bits_val (slice l (p + 48) 16) < 2 ^ 16)%N).
  { intros A. assert (E : slice l p 64 = slice l p 48 ++ slice l (p + 48) 16) by (unfold slice; rewrite <- (firstn_skipn 48 (firstn 64 (skipn p l))), firstn_firstn, skipn_firstn_comm, skipn_skipn'; f_equal; f_equal; f_equal; lia).
    pose proof (bits_val_lt (slice l (p + 48) 16)) as X. assert (Ls : length (slice l (p + 48) 16) = 16) by (apply slice_length; lia). rewrite Ls in X. split; [|exact X]. rewrite E, bits_val_app, Ls. reflexivity. }
  split; intros [A B]; (split; [exact A|]); destruct (Sp A) as [S1 S2].
  - pose proof (win64_split _ (W A) B) as E. rewrite S1 in E. change ANY_MARKER with (0x448944894489 * 2 ^ 16)%N in E. pose proof (N.mod_lt (bits_val (slice l p 48) * 2 ^ 16 + bits_val (slice l (p + 48) 16)) (2 ^ 16) ltac:(discriminate)) as M.
    set (m := ((bits_val (slice l p 48) * 2 ^ 16 + bits_val (slice l (p + 48) 16)) mod 2 ^ 16)%N) in *. change (2 ^ 16)%N with 65536%N in *. clear - E S2 M. lia.
  - rewrite S1, B. generalize S2. generalize (bits_val (slice l (p + 48) 16)). clear. intros x Hx. change MARKER_MASK with (N.shiftl (N.ones 48) 16). change ANY_MARKER with (N.shiftl 0x448944894489 16).
    replace (0x448944894489 * 2 ^ 16 + x)%N with (N.lor (N.shiftl 0x448944894489 16) x).
    2:{ symmetry. apply OddEven_proofs.glue_lor. exact Hx. }
    rewrite N.land_lor_distr_l. replace (N.land x (N.shiftl (N.ones 48) 16)) with 0%N.
    + rewrite N.lor_0_r, <- N.shiftl_land, N.land_ones. reflexivity.
    + symmetry. apply N.bits_inj. intros i. rewrite N.land_spec, N.bits_0. destruct (N.lt_ge_cases i 16) as [L|L]; [rewrite N.shiftl_spec_low by exact L; apply andb_false_r|]. replace (N.testbit x i) with false; [reflexivity|]. symmetry. rewrite <- (N.mod_small x (2 ^ 16)) by exact Hx. apply N.mod_pow2_bits_high. exact L.
Qed.
(* ---- the scan ---- *)
Lemma markers_total m : plain (m_bits m) ->
  (mark_first (mfm_data m) /\ scan_markers m = Panic) \/ (~ mark_first (mfm_data m) /\ exists L, scan_markers m = Ok L).
Proof.
  intros P. unfold scan_markers, s34_find_marker. pose proof (iam_find_at0 m P) as H0. unfold win_is in H0. rewrite index_iff in H0.
  destruct (find_marker m (marker64 (marker_u64 Iam)) 0 (Some 5000)) as [[[p v]|]|e|] eqn:E; cbn [obind].
  - right. apply find_marker_some in E; [|exact P|reflexivity]. cbn [marker64 me_mask me_bits] in E. destruct E as ((_ & A & B & C) & D & _). pose proof B as B'. apply index_iff in B. split.
    + intros [X|[_ X]]; [apply (C 0); [lia|apply index_iff; exact X]|]. apply (X p); [|exact B]. unfold search_lim in A. lia.
    + apply loop_total; [exact P|unfold MFM_BYTE_LEN; lia|lia|lia].
  - apply find_marker_none in E; [|exact P|reflexivity]. cbn [marker64 me_mask me_bits] in E.
    assert (No : forall p, p + 64 <= 5000 -> ~ index_mark_at (mfm_data m) p). { intros p Hp X. apply (E p); [lia| |apply index_iff; exact X]. destruct X as [X _]. unfold search_lim, mfm_len, ring_len, mfm_data in *. lia. }
    cbn [scan_loop]. unfold find_next_marker. destruct (find_marker m (mkMarker ANY_MARKER MARKER_MASK 64) 0 None) as [[[p v]|]|e|] eqn:F; cbn [obind].
    + right. apply find_marker_some in F; [|exact P|reflexivity]. cbn [me_mask me_bits] in F. destruct F as ((_ & A & B & C) & D & _). split.
      * intros [X|[X _]]; [apply (No 0); [lia|exact X]|]. apply (C 0); [lia|apply address_iff; exact X].
      * destruct (marker_of_u16 v); cbn [option_map]; [|eexists; reflexivity]. destruct B as [B _]. unfold mfm_data in B. apply loop_total; [exact P|unfold MFM_BYTE_LEN; lia|unfold MFM_BYTE_LEN, mfm_len, ring_len; lia|unfold mfm_len, ring_len; lia].
    + right. apply find_marker_none in F; [|exact P|reflexivity]. cbn [me_mask me_bits] in F. split; [|eexists; reflexivity]. intros [X|[X _]]; [apply (No 0); [lia|exact X]|]. apply (F 0); [lia| |apply address_iff; exact X]. destruct X as [X _]. exact X.
    + exfalso. destruct (find_marker_spec m (mkMarker ANY_MARKER MARKER_MASK 64) 0 None P eq_refl) as [(q & _ & Eq)|(_ & Eq)]; rewrite F in Eq; [destruct (q =? 0)|]; discriminate.
    + left. apply find_marker_panic in F; [|exact P|reflexivity]. destruct F as (_ & _ & B & _). split; [|reflexivity]. right. split; [apply address_iff; exact B|exact No].
  - exfalso. destruct (find_marker_spec m (marker64 (marker_u64 Iam)) 0 (Some 5000) P eq_refl) as [(q & _ & Eq)|(_ & Eq)]; rewrite E in Eq; [destruct (q =? 0)|]; discriminate.
  - left. split; [|reflexivity]. left. apply H0. reflexivity.
Qed.
Lemma short_no_mark l : length l < 64 -> ~ mark_first l.
Proof. intros H [[A _]|[[A _] _]]; lia. Qed.
Lemma empty_scan m : r_bits (m_bits m) = [] -> scan_markers m = Ok [].
Proof.
  intros H. unfold scan_markers, s34_find_marker, find_marker. unfold ring_is_empty. rewrite H. cbn [obind scan_loop]. unfold find_next_marker, find_marker, ring_is_empty. rewrite H. reflexivity.
Qed.
(* what follows the making of the codec *)
Definition bt_finish (rnd : nat -> bool) (ch : DiskCh) (m : Mfm) : outcome BitTrack :=
  let! markers := scan_markers m in
  match markers with
  | [] => Ok (mkTrack ch m meta_default false)
  | _ =>
      let! cm := create_clock_map markers (r_bits (m_clock m)) in
      let m := set_clock_bits m cm in
      let! (items, m) := scan_metadata rnd m markers in
      let md := meta_new items in
      let m := match data_ranges md with [] => m | rs => set_data_ranges m rs end in
      Ok (mkTrack ch m md true)
  end.
Definition ready (m : Mfm) : Prop := sound m /\ length (r_bits (m_clock m)) = mfm_len m.
(* what holds of every track that was made of some cells *)
Definition good_item (i : Inst) : Prop := match i_elem i with ElData _ _ _ _ => i_start i < i_end i | _ => True end.
Definition alive (t : BitTrack) : Prop := sound (bt_data t) /\ (bt_schema t = false -> md_items (bt_meta t) = []) /\ Forall good_item (md_items (bt_meta t)).
Lemma wf_good l : wf_items l -> Forall good_item l.
Proof.
  induction 1 as [|i l [k Hk] Hl IH|i l c ae Hi Hl IH|h d l c ae de del Hh Hd He Hs Hz Hl IH]; [constructor|constructor; [unfold good_item; rewrite Hk; exact I|exact IH]|constructor; [unfold good_item; rewrite Hi; exact I|exact IH]|].
  constructor; [unfold good_item; rewrite Hh; exact I|]. constructor; [unfold good_item; rewrite Hd; lia|exact IH].
Qed.
Lemma finish_total rnd ch m : ready m \/ r_bits (m_bits m) = [] ->
  (mark_first (mfm_data m) /\ bt_finish rnd ch m = Panic) \/ (~ mark_first (mfm_data m) /\ exists t, bt_finish rnd ch m = Ok t /\ mfm_data (bt_data t) = mfm_data m /\ (mfm_data m <> [] -> alive t)).
Proof.
  intros [[H Lc]|H]; unfold bt_finish; cycle 1.
  { right. split; [apply short_no_mark; unfold mfm_data; rewrite H; cbn; lia|]. rewrite (empty_scan m H). cbn [obind]. eexists. split; [reflexivity|]. split; [reflexivity|]. intros X. contradiction. }
  pose proof (proj1 (proj1 H)) as P. destruct (markers_total m P) as [[M E]|[M [L E]]]; rewrite E; cbn [obind]; [left; split; [exact M|reflexivity]|]. right. split; [exact M|].
  destruct L as [|x L]; [eexists; split; [reflexivity|]; split; [reflexivity|]; intros _; split; [exact H|]; split; [reflexivity|constructor]|]. pose proof (scan_markers_inv m _ P E) as [S1 _]. pose proof (scan_markers_real m _ P E) as S2. rewrite Forall_forall in S2.
  destruct (clock_total (x :: L) (r_bits (m_clock m))) as [cm Ec]; [discriminate|exact S1| |].
  { intros y Hy. destruct (S2 y Hy) as (A & B & _). unfold mfm_data in B. unfold mfm_len, ring_len in Lc. lia. }
  rewrite Ec. cbn [obind]. pose proof (clock_map_length _ _ _ Ec) as Lm.
  assert (Sd : sound (set_clock_bits m cm)). { destruct H as [(A & B & C & D) W]. split; [|exact W]. split; [exact A|]. cbn [set_clock_bits with_clock m_clock r_bits r_wrap m_weak]. rewrite Lm. split; [exact B|]. split; [exact C|exact D]. }
  destruct (metadata_total rnd (set_clock_bits m cm) (x :: L) Sd) as (items & m' & Es). rewrite Es. cbn [obind]. pose proof (scan_metadata_moved _ _ _ _ _ Es) as [c ->].
  pose proof (scan_metadata_wf _ _ _ _ _ S1 Es) as W. eexists. split; [reflexivity|]. cbn [bt_data]. split; [destruct (data_ranges (meta_new items)); reflexivity|]. intros _. split; [cbn [bt_data]; destruct (data_ranges (meta_new items)); exact Sd|]. split; [cbn [bt_schema]; intros X; discriminate X|]. cbn [bt_meta meta_new md_items]. exact (wf_good _ W).
Qed.
Lemma error_loop_length : forall l z b, length (error_map_loop l z b) = length l.
Proof. induction l as [|x l IH]; intros z b; [reflexivity|]. cbn [error_map_loop]. destruct x; cbn [negb]; cbn [length]; rewrite IH; reflexivity. Qed.
Lemma mask_length run : forall l z, length (weak_mask_loop run l z) = length l.
Proof. induction l as [|x l IH]; intros z; [reflexivity|]. cbn [weak_mask_loop length]. rewrite IH. reflexivity. Qed.
Lemma collect_total (l : list bool) : forall k s acc, s + k <= length l -> exists x, ofold (fun acc i => let! b := oindex l i in Ok (b :: acc)) (seq s k) acc = Ok x /\ length x = k + length acc.
Proof.
  induction k as [|k IH]; intros s acc H; cbn [seq ofold]; [exists acc; split; reflexivity|]. rewrite (oindex_nth _ _ false) by lia. cbn [obind]. destruct (IH (S s) (nth s l false :: acc) ltac:(lia)) as (x & E & L). exists x. split; [exact E|]. cbn [length] in L. lia.
Qed.
Lemma detect_total m run : r_wrap (m_bits m) = length (r_bits (m_bits m)) -> exists w, create_weak_bit_mask m run = Ok w /\ length w = mfm_len m.
Proof.
  intros H. unfold create_weak_bit_mask, ring_iter_revolution. rewrite H. destruct (collect_total (r_bits (m_bits m)) (length (r_bits (m_bits m))) 0 [] ltac:(lia)) as (x & E & L). rewrite E. cbn [omap obind].
  assert (Lw : length (weak_mask_loop run (rev x) 0) = mfm_len m) by (rewrite mask_length, rev_length, L; unfold mfm_len, ring_len; cbn; lia). rewrite Lw, Nat.eqb_refl. eexists. split; [reflexivity|exact Lw].
Qed.
Lemma blank_even n : map (fun i => i mod 2 =? 0) (seq 0 n) = map Nat.even (seq 0 n).
Proof.
  apply map_ext. intros i. destruct (Nat.Even_or_Odd i) as [[k ->]|[k ->]].
  - rewrite Nat.mul_comm, Nat.mod_mul by lia. rewrite Nat.even_mul. rewrite orb_true_r. reflexivity.
  - rewrite Nat.add_comm, Nat.mul_comm, Nat.mod_add by lia. rewrite Nat.even_add, Nat.even_mul. rewrite orb_true_r. reflexivity.
Qed.
Lemma new_total rnd ch data weak ct dw : data <> [] \/ ct <> None -> match weak with Some w => length w = length data /\ data <> [] | None => True end ->
  (mark_first (input_cells data ct) /\ bt_new rnd ch data weak ct dw = Panic) \/ (~ mark_first (input_cells data ct) /\ exists t, bt_new rnd ch data weak ct dw = Ok t /\ mfm_data (bt_data t) = input_cells data ct /\ (input_cells data ct <> [] -> alive t)).
Proof.
  intros Hd Hw. unfold bt_new. replace (match weak with Some w => negb (length data =? length w) | None => false end) with false by (destruct weak as [w|]; [|reflexivity]; destruct Hw as [-> _]; rewrite Nat.eqb_refl; reflexivity).
  set (bits := match data, ct with [], Some n => map Nat.even (seq 0 n) | _, _ => flat_map byte_bits data end).
  assert (Eb : match data with [] => match ct with Some n => Ok (map (fun i => i mod 2 =? 0) (seq 0 n)) | None => Err ParameterError end | _ => Ok (flat_map byte_bits data) end = Ok bits).
  { unfold bits. destruct data as [|x data]; [|reflexivity]. destruct ct as [n|]; [rewrite blank_even; reflexivity|]. destruct Hd; congruence. }
  rewrite Eb. cbn [obind]. set (cut := match ct with Some n => firstn n bits | None => bits end). assert (Ec : input_cells data ct = cut) by reflexivity. rewrite Ec. clearbody bits.
  assert (Lcut : length cut <= length bits) by (unfold cut; destruct ct; [rewrite firstn_length; lia|lia]).
  unfold mfm_new. fold cut. set (sync := match get_mfm_sync_offset cut with Some s => s | None => false end). set (wk := match option_map (flat_map byte_bits) weak with Some w => w | None => repeat false (length cut) end).
  assert (Lw : length cut <= length wk).
  { unfold wk. destruct weak as [w|]; cbn [option_map]; [|rewrite repeat_length; lia]. destruct Hw as [Hl Hn]. rewrite (flat_map_const_length byte_bits 8) by (intros; apply byte_bits_length). assert (Ebits : bits = flat_map byte_bits data) by (destruct data as [|d0 data]; [congruence|exact (f_equal (fun o => match o with Ok y => y | _ => bits end) (eq_sym Eb))]). rewrite Ebits, (flat_map_const_length byte_bits 8) in Lcut by (intros; apply byte_bits_length). rewrite Hl. exact Lcut. }
  destruct (Nat.ltb_spec (length wk) (length cut)); [lia|]. cbn [obind].
  set (m := mkMfm (ring_from cut) (ring_set_wrap_value (ring_from (repeat sync (length cut))) (Some false)) (ring_from (create_error_map cut)) true (ring_from wk) (if sync then 1 else 0) (if sync then 1 else 0) [] []).
  match goal with |- (_ /\ obind ?e _ = _) \/ _ => assert (Em : exists w', length cut <= length w' /\ e = Ok (mfm_set_weak_mask m w')) end.
  { destruct weak as [w|]; [exists wk; split; [exact Lw|reflexivity]|]. destruct dw; [|exists wk; split; [exact Lw|reflexivity]].
    destruct (detect_total m 6 eq_refl) as (w & E & L). rewrite E. cbn [obind]. unfold mfm_set_weak_mask_checked. rewrite L, Nat.eqb_refl. exists w. split; [|reflexivity]. rewrite L. unfold mfm_len, ring_len. cbn [m m_bits ring_from r_bits]. lia. }
  destruct Em as (w' & Lw' & Em). rewrite Em. cbn [obind]. refine (finish_total rnd ch (mfm_set_weak_mask m w') _). clear Em. assert (C : cut = [] \/ cut <> []) by (clear; destruct cut; [left; reflexivity|right; discriminate]). destruct C as [C|C]; [right; exact C|]. left. assert (C1 : 1 <= length cut) by (revert C; clear; destruct cut; [contradiction|cbn; lia]). split.
  - assert (W : w' <> []) by (intros ->; cbn in Lw'; lia). split; [|exact W]. split; [apply plain_from; exact C|]. cbn [mfm_set_weak_mask with_weak m m_clock ring_set_wrap_value ring_from r_bits r_wrap m_weak]. rewrite repeat_length. split; [exact C1|]. split; [reflexivity|]. right. apply plain_from. exact W.
  - cbn [mfm_set_weak_mask with_weak m m_clock ring_set_wrap_value ring_from r_bits]. rewrite repeat_length. reflexivity.
Qed.
