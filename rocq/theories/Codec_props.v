(* Codec_props.v - properties of the bit ring, MFM codec, range checker (C07-C11, C14, C36, C38, C42). *)
From Verif Require Import Base Base_lemmas BitRing_model RangeCheck_model Mfm_model Mfm_spec BitRing_proofs Mfm_proofs Marker_proofs RangeCheck_proofs Weak_proofs Codec_lemmas.

(* ---- C07: a ring refines a circular array, for every history of operations ---- *)
Theorem C07_ring_refines_circular_array : forall r ops,
  0 < r_wrap r <= length (r_bits r) -> r_cursor r < r_wrap r ->
  let a := mkAring (firstn (r_wrap r) (r_bits r)) (r_cursor r) (r_wrapv r) in
  exists r', ring_run r ops = Ok (r', snd (aring_run a ops)) /\
    fst (aring_run a ops) = mkAring (firstn (r_wrap r') (r_bits r')) (r_cursor r') (r_wrapv r') /\
    r_wrap r' = r_wrap r /\ skipn (r_wrap r) (r_bits r') = skipn (r_wrap r) (r_bits r).
Proof.
  intros r ops H1 H2 a. destruct (ring_run_refines r ops (conj H1 H2)) as (r' & A & B & C & D & E).
  exists r'. auto.
Qed.
Print Assumptions C07_ring_refines_circular_array.
Example C07_ex : ring_run (ring_from [true; false; true]) [OpSet 4 true; OpGet 1; OpNext; OpNext; OpRead 1; OpGet 7]
  = Ok (mkRing [true; true; true] 3 1 None, [OutUnit; OutBit true; OutBit true; OutBit true; OutBytes [255%N]; OutBit true]).
Proof. vm_compute. reflexivity. Qed.
(* Rings made by the constructors satisfy the hypotheses (unless empty). *)
Theorem C07_constructors : forall bits, bits <> [] ->
  0 < r_wrap (ring_from bits) <= length (r_bits (ring_from bits)) /\ r_cursor (ring_from bits) < r_wrap (ring_from bits).
Proof. intros [|b t] H; [congruence|]. cbn. lia. Qed.
Print Assumptions C07_constructors.
Theorem C07_iter_revolution : forall bits, bits <> [] -> ring_iter_revolution (ring_from bits) = Ok bits.
Proof. intros bits H. exact (ring_iter_revolution_plain _ (plain_from _ H)). Qed.
Print Assumptions C07_iter_revolution.
(* The iterator documented as infinite panics after one revolution. *)
Theorem C07_infinite_iter_refuted : exists bits, bits <> [] /\ ring_iter 4 (ring_from bits) = Panic.
Proof. exists [true; false; true]. split; [discriminate|reflexivity]. Qed.
Print Assumptions C07_infinite_iter_refuted.

(* ---- C08 ---- *)
(* Any codec: write then read at the same position (which may wrap round the index). *)
Theorem C08_write_then_read : forall m buf i d,
  mfm_wf m -> bytes_ok buf = true -> 16 * length buf <= mfm_len m ->
  in_phase m i (Nat.max 1 (length buf)) d -> no_weak m (i + d) (length buf) ->
  exists m', write_encoded_buf m buf i = Ok (m', 2 * length buf) /\
    mfm_wf m' /\
    (forall rnd, read_decoded_buf rnd m' (length buf) i = Ok buf) /\
    m' = with_bits m (m_bits m') /\ mfm_len m' = mfm_len m /\
    window (mfm_data m') (i + d) (16 * length buf) = mfm_encode buf false EData /\
    (forall j, (forall k, k < 16 * length buf -> (i + d + k) mod mfm_len m <> j) ->
               nth j (mfm_data m') false = nth j (mfm_data m) false).
Proof. exact mfm_write_read. Qed.
Print Assumptions C08_write_then_read.

(* A codec just built from track bits needs no phase or weak-bit hypotheses. *)
Theorem C08_fresh_codec : forall bits buf i,
  bits <> [] -> bytes_ok buf = true -> 16 * length buf <= length bits ->
  exists m m', mfm_new bits None None = Ok m /\ write_encoded_buf m buf i = Ok (m', 2 * length buf) /\
    (forall rnd, read_decoded_buf rnd m' (length buf) i = Ok buf) /\
    length (mfm_data m') = length bits /\
    (forall j, (forall k, k < 16 * length buf -> (i + k) mod length bits <> j) ->
               nth j (mfm_data m') false = nth j bits false).
Proof.
  intros bits buf i Hb Hok Hlen. destruct (mfm_new_ok bits) as [m Hm]. exists m.
  pose proof (mfm_new_data _ _ Hm) as Hd.
  assert (Hl : mfm_len m = length bits) by (rewrite <- Hd; reflexivity).
  destruct (mfm_write_read m buf i 0) as (m' & A & _ & B & _ & C & _ & D); auto.
  - apply (mfm_new_wf _ _ _ _ Hm). congruence.
  - lia.
  - exact (mfm_new_phase _ _ _ _ _ Hm).
  - exact (mfm_new_no_weak _ _ _ _ Hm).
  - exists m'. repeat split; auto.
    + rewrite <- Hl. exact C.
    + intros j Hj. rewrite <- Hd. apply D. rewrite Nat.add_0_r, Hl. exact Hj.
Qed.
Print Assumptions C08_fresh_codec.
Example C08_fresh_ex :
  (let! m := mfm_new (repeat true 40) None None in
   let! (m', n) := write_encoded_buf m [0xA1; 0xFF]%N 30 in
   let! l := read_decoded_buf (fun _ => true) m' 2 30 in Ok (l, n)) = Ok ([0xA1; 0xFF]%N, 4).
Proof. vm_compute. reflexivity. Qed.

(* Reads decode the data cells of the circular track, for any content. *)
Theorem C08_read_is_decode : forall rnd m i n d,
  mfm_wf m -> in_phase m i n d -> no_weak m (i + d) n ->
  read_decoded_buf rnd m n i = Ok (bytes_of n (data_window (mfm_data m) (i + d) (8 * n))).
Proof. exact read_decoded_buf_spec. Qed.
Print Assumptions C08_read_is_decode.
Theorem C08_read_u32_be : forall rnd m i, mfm_wf m ->
  let c := if clk m i then i else i + 1 in
  (forall k, k < 64 -> weak_at m (c + k) = false) ->
  read_decoded_u32_be rnd m i = Ok (bits_val (data_window (mfm_data m) c 32)).
Proof. exact read_decoded_u32_be_spec. Qed.
Print Assumptions C08_read_u32_be.
(* The u32 reads advance by one cell where the byte reads stay: on a track without a clock map the
   two decode different bits from the same position. *)
Theorem C08_u32_vs_u8_refuted : exists bits m, mfm_new bits None None = Ok m /\
  read_decoded_buf (fun _ => false) m 4 0 = Ok [0xDE; 0xAD; 0xBE; 0xEF]%N /\
  read_decoded_u32_be (fun _ => false) m 0 <> Ok 0xDEADBEEF%N.
Proof.
  exists (mfm_encode [0xDE; 0xAD; 0xBE; 0xEF; 0x00]%N false EData).
  eexists. split; [vm_compute; reflexivity|]. split; [vm_compute; reflexivity|]. vm_compute. discriminate.
Qed.
Print Assumptions C08_u32_vs_u8_refuted.

(* ---- C09 ---- *)
Theorem C09_length : forall data prev, length (mfm_encode data prev EData) = 16 * length data.
Proof. exact mfm_encode_length. Qed.
Print Assumptions C09_length.
(* Cell k: data bit k preceded by a clock bit that is 1 iff data bits k-1 and k are both 0. *)
Theorem C09_cells : forall data prev k, k < 8 * length data ->
  let e := mfm_encode data prev EData in
  let d j := nth j (bits_of data) false in
  let before := match k with O => prev | S j => d j end in
  nth (2 * k + 1) e false = d k /\
  (nth (2 * k) e false = true <-> before = false /\ d k = false).
Proof.
  intros data prev k Hk e d before. unfold e, d. rewrite mfm_encode_spec, mfm_nth_data, mfm_nth_clock by (rewrite bits_of_length; auto).
  split; [reflexivity|]. assert (E : nth k (prev :: bits_of data) false = before) by (destruct k; reflexivity).
  rewrite E. fold (d k). destruct before, (d k); cbn; intuition discriminate.
Qed.
Print Assumptions C09_cells.
Theorem C09_no_adjacent_ones : forall data prev i,
  let e := prev :: mfm_encode data prev EData in
  ~ (nth i e false = true /\ nth (S i) e false = true).
Proof. intros data prev i e [H1 H2]. unfold e in *. rewrite mfm_encode_spec in *. exact (mfm_no_adjacent _ _ _ H1 H2). Qed.
Print Assumptions C09_no_adjacent_ones.
Theorem C09_at_most_three_zeros : forall data prev i, i + 4 <= 16 * length data ->
  exists j, i <= j < i + 4 /\ nth j (mfm_encode data prev EData) false = true.
Proof. intros data prev i H. rewrite mfm_encode_spec. apply mfm_zero_run. rewrite bits_of_length. lia. Qed.
Print Assumptions C09_at_most_three_zeros.
Example C09_ex : mfm_encode [0xA1]%N false EData = bits_of [0x44; 0xA9]%N.
Proof. reflexivity. Qed.
(* Two pieces encoded with the right preceding bit join into the encoding of the whole. *)
Theorem C09_concat : forall d1 d2 prev,
  mfm_encode (d1 ++ d2) prev EData =
  mfm_encode d1 prev EData ++ mfm_encode d2 (last (bits_of d1) prev) EData.
Proof. intros. rewrite !mfm_encode_spec, bits_of_app, mfm_app. reflexivity. Qed.
Print Assumptions C09_concat.
(* The address-mark variant does not drop a clock of A1: it yields the ordinary 44A9, not 4489. *)
Theorem C09_address_mark_variant_refuted :
  mfm_encode [0xA1]%N false EAddressMark = mfm_encode [0xA1]%N false EData /\
  mfm_encode [0xA1]%N false EAddressMark <> bits_of [0x44; 0x89]%N /\
  mfm_encode [0xC2]%N false EAddressMark <> bits_of [0x52; 0x24]%N.
Proof. split; [reflexivity|]. split; discriminate. Qed.
Print Assumptions C09_address_mark_variant_refuted.

(* ---- C10 ---- *)
(* The A1 and C2 sync words with missing clock occur nowhere in encoded data, at any alignment. *)
Theorem C10_no_marker_in_data : forall data prev p,
  ~ occurs (mfm_encode data prev EData) 0xFFFFFFFFFFFF0000 0x4489448944890000 p /\
  ~ occurs (mfm_encode data prev EData) 0xFFFFFFFFFFFF0000 0x5224522452240000 p.
Proof. intros data prev p. rewrite mfm_encode_spec. exact (conj (no_a1_in_data _ _ p) (no_c2_in_data _ _ p)). Qed.
Print Assumptions C10_no_marker_in_data.
(* Hence the marker search reports none of the System 34 marks in a track of ordinary data. *)
Theorem C10_find_marker_in_data : forall data prev m mk start limit,
  mfm_data m = mfm_encode data prev EData -> data <> [] -> plain (m_bits m) -> me_len mk = 64 ->
  N.land (me_mask mk) A1_MASK = A1_MASK ->
  N.land (me_bits mk) A1_MASK = A1_PAT \/ N.land (me_bits mk) A1_MASK = C2_PAT ->
  find_marker m mk start limit = Ok None.
Proof.
  intros data prev m mk start limit Hd Hne Hp Hl Hm Hb. apply find_marker_none; auto.
  intros q _ _ Ho. apply (occurs_mask _ _ A1_MASK) in Ho; auto. rewrite Hd, mfm_encode_spec in Ho.
  destruct Hb as [Hb|Hb]; rewrite Hb in Ho; [eapply no_a1_in_data|eapply no_c2_in_data]; exact Ho.
Qed.
Print Assumptions C10_find_marker_in_data.
Example C10_find_ex : N.land mask64 A1_MASK = A1_MASK /\ N.land 0x4489448944895554 A1_MASK = A1_PAT
  /\ N.land 0x5224522452245552 A1_MASK = C2_PAT /\ N.land A1_MASK A1_MASK = A1_MASK.
Proof. repeat split. Qed.
(* More generally, in a stream whose missing clocks are known, an A1 mark occurs only where three
   clocks, 8 data bits apart, are missing. *)
Theorem C10_marker_needs_missing_clocks : forall l C p, clocks_ok l C -> occurs l A1_MASK A1_PAT p ->
  exists k, C k /\ C (k + 8) /\ C (k + 16) /\ (p = 2 * (k - 5) \/ p = 2 * (k - 2) + 1).
Proof.
  intros l C p HC H. destruct (even_odd_split p) as [q [-> | ->]].
  - apply (a1_even _ _ _ HC) in H. exists (q + 5).
    replace (q + 5 + 8) with (q + 13) by lia. replace (q + 5 + 16) with (q + 21) by lia. repeat split; try tauto. left; lia.
  - apply (a1_odd _ _ _ HC) in H. exists (q + 2).
    replace (q + 2 + 8) with (q + 10) by lia. replace (q + 2 + 16) with (q + 18) by lia. repeat split; try tauto. right; lia.
Qed.
Print Assumptions C10_marker_needs_missing_clocks.

(* ---- C11 ---- *)
Theorem C11_found : forall m mk start limit p v, plain (m_bits m) -> me_len mk = 64 ->
  find_marker m mk start limit = Ok (Some (p, v)) <->
  first_occ (mfm_data m) (me_mask mk) (me_bits mk) start (search_lim m limit) p /\ 0 < p /\
  v = (win64 (mfm_data m) p mod 2 ^ 16)%N.
Proof. exact find_marker_some. Qed.
Print Assumptions C11_found.
Theorem C11_not_found : forall m mk start limit, plain (m_bits m) -> me_len mk = 64 ->
  find_marker m mk start limit = Ok None <->
  no_occ (mfm_data m) (me_mask mk) (me_bits mk) start (search_lim m limit).
Proof. exact find_marker_none. Qed.
Print Assumptions C11_not_found.
Definition ex_marked : list bool := true :: bits_of [0x44; 0x89; 0x44; 0x89; 0x44; 0x89; 0x55; 0x54; 0xAA]%N.
Example C11_ex : exists m, mfm_new ex_marked None None = Ok m /\ plain (m_bits m) /\
  find_marker m (mkMarker 0x4489448944890000 0xFFFFFFFFFFFF0000 64) 0 None = Ok (Some (1, 0x5554%N)).
Proof. eexists. split; [vm_compute; reflexivity|]. split; [repeat split; vm_compute; lia|vm_compute; reflexivity]. Qed.
(* A marker at bit 0 of the track overflows the position computation (panics in a checked build). *)
Theorem C11_marker_at_zero_refuted : forall m mk limit, plain (m_bits m) -> me_len mk = 64 ->
  occurs (mfm_data m) (me_mask mk) (me_bits mk) 0 -> 64 <= search_lim m limit ->
  find_marker m mk 0 limit = Panic.
Proof.
  intros m mk limit Hp Hl Ho Hs. apply find_marker_panic; auto. split; [lia|]. split; [lia|]. split; [auto|]. intros q Hq; lia.
Qed.
Print Assumptions C11_marker_at_zero_refuted.
Example C11_marker_at_zero_ex : exists m, mfm_new (tl ex_marked) None None = Ok m /\
  find_marker m (marker64 0x4489448944895554) 0 None = Panic.
Proof. eexists; split; vm_compute; reflexivity. Qed.

(* ---- C14 ---- *)
Theorem C14_contains : forall rs v, Forall (fun r => fst r <= snd r) rs ->
  (range_contains (range_new rs) v = true <-> exists r, In r rs /\ fst r <= v <= snd r).
Proof. exact range_contains_spec. Qed.
Print Assumptions C14_contains.
Example C14_ex : Forall (fun r => fst r <= snd r) [(5, 9); (2, 7); (20, 20)] /\
  range_contains (range_new [(5, 9); (2, 7); (20, 20)]) 8 = true /\ range_contains (range_new [(5, 9); (2, 7); (20, 20)]) 15 = false.
Proof. split; [repeat constructor|split; reflexivity]. Qed.
Theorem C14_is_data : forall m rs v, Forall (fun r => fst r <= snd r) rs ->
  (is_data (set_data_ranges m rs) v true = true <-> exists r, In r rs /\ fst r <= v <= snd r) /\
  (is_data (set_data_ranges m rs) v false = true <->
     exists r, In r rs /\ fst r <= v <= snd r /\ snd r < mfm_len m).
Proof.
  intros m rs v H. split; [apply range_contains_spec; auto|].
  unfold is_data, set_data_ranges. cbn [m_ranges_f]. rewrite range_contains_spec.
  - split; intros (r & Hi & Hb).
    + apply filter_In in Hi as [Hi Hf]. exists r. split; auto. split; [lia|].
      destruct (Nat.leb_spec (mfm_len m) (snd r)); [rewrite orb_true_r in Hf; discriminate|auto].
    + exists r. split; [|lia]. apply filter_In. split; auto. rewrite Forall_forall in H. specialize (H r Hi).
      destruct (Nat.leb_spec (mfm_len m) (fst r)), (Nat.leb_spec (mfm_len m) (snd r)); cbn; auto; lia.
  - rewrite Forall_forall in *. intros r Hr. apply filter_In in Hr as [Hr _]. auto.
Qed.
Print Assumptions C14_is_data.
(* The ranges are Rust half-open ranges, yet the end itself is reported as inside. *)
Theorem C14_end_exclusive_refuted : exists s e, s < e /\ range_contains (range_new [(s, e)]) e = true.
Proof. exists 3, 5. split; [lia|reflexivity]. Qed.
Print Assumptions C14_end_exclusive_refuted.

(* ---- C36 ---- *)
Theorem C36_weak_mask : forall m run, plain (m_bits m) ->
  exists w, create_weak_bit_mask m run = Ok w /\ length w = mfm_len m /\
    forall i, i < mfm_len m ->
      nth i w false = true <-> (run <= i /\ forall k, k <= run -> nth (i - k) (mfm_data m) true = false).
Proof. exact create_weak_bit_mask_spec. Qed.
Print Assumptions C36_weak_mask.
Example C36_weak_mask_ex : exists m, mfm_new [true; false; false; false; false; true] None None = Ok m /\
  create_weak_bit_mask m 2 = Ok [false; false; false; true; true; false].
Proof. eexists; split; vm_compute; reflexivity. Qed.
Theorem C36_region_count_positive : forall m run, plain (m_bits m) -> 0 < run ->
  exists reg wk, detect_weak_bits m run = Ok (reg, wk) /\
    (0 < reg <-> exists i, i + run < mfm_len m /\ nth (i + run) (mfm_data m) false = true /\
                           (forall k, k < run -> nth (i + k) (mfm_data m) true = false)).
Proof. exact detect_weak_regions_spec. Qed.
Print Assumptions C36_region_count_positive.
(* The predicate "has weak bits" is true of every track (operator precedence). *)
Theorem C36_has_weak_bits_refuted : forall m, plain (m_bits m) -> (N.of_nat (mfm_len m) < 2 ^ 64 - 1)%N ->
  mfm_has_weak_bits m = Ok true.
Proof. exact has_weak_bits_true. Qed.
Print Assumptions C36_has_weak_bits_refuted.
Example C36_has_weak_ex : exists m, mfm_new (mfm_encode [0x4E; 0x4E]%N false EData) None None = Ok m /\
  mfm_has_weak_bits m = Ok true /\ detect_weak_bits m 6 = Ok (0, 0).
Proof. eexists; split; [vm_compute; reflexivity|split; vm_compute; reflexivity]. Qed.

(* ---- C49 ---- *)
Lemma bytes_of_map (f : nat -> bool) n s :
  bytes_of n (map f (seq s (8 * n))) = map (fun k => bits_val (map (fun j => f (s + 8 * k + j)) (seq 0 8))) (seq 0 n).
Proof.
  revert s; induction n as [|n IH]; intros s; [reflexivity|].
  replace (8 * S n) with (8 + 8 * n) by lia. rewrite seq_app, map_app.
  rewrite bytes_of_app8 by (rewrite map_length, seq_length; reflexivity). rewrite IH.
  change (seq 0 (S n)) with (0 :: seq 1 n). rewrite map_cons. f_equal.
  - f_equal. rewrite (map_seq_shift f s 8). apply map_ext; intros k; f_equal; lia.
  - rewrite (map_seq_shift _ 1). apply map_ext; intros k. f_equal. apply map_ext; intros j; f_equal; lia.
Qed.
(* Every data bit of a read is the stored cell, or the random source's bit where the weak mask is set. *)
Theorem C49_weak_cells_random : forall rnd m i n d, mfm_wf m -> in_phase m i n d ->
  read_decoded_buf rnd m n i =
  Ok (bytes_of n (map (fun k => let c := i + d + 1 + 2 * k in
                                if weak_at m c then rnd c else circ (mfm_data m) c) (seq 0 (8 * n)))).
Proof.
  intros rnd m i n d H Hp. unfold read_decoded_buf. rewrite bytes_of_map.
  apply ofold_rev_map0. intros k Hk.
  rewrite read_decoded_u8_spec by auto. unfold MFM_BYTE_LEN.
  replace (i + k * 16) with (i + 16 * k) by lia. rewrite (in_phase_nudge _ _ _ _ _ Hp Hk).
  f_equal. f_equal. apply map_ext. intros j. cbn zeta.
  replace (i + d + 16 * k + 1 + 2 * j) with (i + d + 1 + 2 * (0 + 8 * k + j)) by lia. reflexivity.
Qed.
(* A cell is weak exactly when weak bits are enabled and the mask has a 1 there. *)
Theorem C49_weak_mask_meaning : forall bits mask m c, mfm_new bits None (Some mask) = Ok m ->
  0 < length bits -> length mask = length bits ->
  weak_at m c = circ mask c.
Proof.
  intros bits mask m c H H1 H2. unfold mfm_new in H. rewrite H2, Nat.ltb_irrefl in H. injection H as <-.
  unfold weak_at. cbn [m_weak_enabled m_weak]. unfold ring_is_empty, ring_from. cbn [r_bits].
  destruct mask; [cbn in H2; lia|]. reflexivity.
Qed.
Theorem C49_strong_cells_repeatable : forall rnd rnd' m i n d, mfm_wf m -> in_phase m i n d ->
  (forall k, k < 8 * n -> weak_at m (i + d + 1 + 2 * k) = false) ->
  read_decoded_buf rnd m n i = read_decoded_buf rnd' m n i.
Proof.
  intros rnd rnd' m i n d H Hp Hw. rewrite !(C49_weak_cells_random _ m i n d) by auto. f_equal. f_equal.
  apply map_ext_in. intros k Hk. apply in_seq in Hk. cbn zeta. rewrite Hw by lia. reflexivity.
Qed.
Example C49_ex : exists m, mfm_new (mfm_encode [0xA1; 0x00; 0xFF]%N false EData) None
    (Some (repeat false 17 ++ [true] ++ repeat false 30)) = Ok m /\
  read_decoded_buf (fun _ => true) m 2 0 = Ok [0xA1; 0x80]%N /\
  read_decoded_buf (fun _ => false) m 2 0 = Ok [0xA1; 0x00]%N.
Proof. eexists; split; [vm_compute; reflexivity|split; vm_compute; reflexivity]. Qed.

(* ---- C38 ---- *)
Theorem C38_raw_read : forall m n i, plain (m_bits m) ->
  read_raw_buf m n i = Ok (bytes_of n (window (mfm_data m) i (8 * n))).
Proof. exact read_raw_buf_spec. Qed.
Print Assumptions C38_raw_read.
Theorem C38_raw_read_u8 : forall m i, plain (m_bits m) -> read_raw_u8 m i = Ok (bits_val (window (mfm_data m) i 8)).
Proof. exact read_raw_u8_spec. Qed.
Print Assumptions C38_raw_read_u8.
Theorem C38_raw_write_read : forall m buf i,
  plain (m_bits m) -> bytes_ok buf = true -> 8 * length buf <= mfm_len m ->
  exists m', write_raw_buf m buf i = Ok m' /\ m' = with_bits m (m_bits m') /\ plain (m_bits m') /\ mfm_len m' = mfm_len m /\
    read_raw_buf m' (length buf) i = Ok buf /\
    (forall j, (forall k, k < 8 * length buf -> (i + k) mod mfm_len m <> j) ->
               nth j (mfm_data m') false = nth j (mfm_data m) false).
Proof. exact raw_write_read. Qed.
Print Assumptions C38_raw_write_read.
Theorem C38_raw_write_u8 : forall m i b, plain (m_bits m) ->
  write_raw_u8 m i b = write_raw_buf m [b] i.
Proof. intros m i b H. rewrite write_raw_u8_spec, write_raw_buf_spec by auto. cbn [bits_of flat_map]. rewrite app_nil_r. reflexivity. Qed.
Print Assumptions C38_raw_write_u8.
Example C38_ex :
  (let! m := mfm_new (repeat false 12) None None in
   let! m' := write_raw_buf m [0xA5]%N 8 in
   let! l := read_raw_buf m' 1 8 in Ok (mfm_data m', l)) =
  Ok ([false;true;false;true; false;false;false;false; true;false;true;false], [0xA5]%N).
Proof. vm_compute. reflexivity. Qed.

(* ---- C42: sync search ---- *)
(* What is returned is one less than the position of the first sync run after bit 0. *)
Theorem C42_find_sync : forall l,
  match find_sync l 0 with
  | Some p => sync_at l (p + 1) /\ forall q, 1 <= q <= p -> ~ sync_at l q
  | None => forall q, 1 <= q -> ~ sync_at l q
  end.
Proof. exact find_sync_spec. Qed.
Print Assumptions C42_find_sync.
(* The returned index is not a sync run, and the phase derived from it is the wrong one: a track
   whose clock bits are at even positions (sync at bit 16) is reported as odd. *)
Theorem C42_sync_offset_refuted : exists l,
  l = mfm_encode [0x4E; 0; 0; 0; 0; 0xA1]%N false EData /\ sync_at l 16 /\
  find_sync l 0 = Some 15 /\ get_mfm_sync_offset l = Some true.
Proof. eexists. split; [reflexivity|]. split; [split; vm_compute; [lia|reflexivity]|]. split; vm_compute; reflexivity. Qed.
Print Assumptions C42_sync_offset_refuted.

Print Assumptions C49_weak_cells_random.
Print Assumptions C49_weak_mask_meaning.
Print Assumptions C49_strong_cells_repeatable.
