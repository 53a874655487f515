(* Tc_proofs.v - the TransCopy loader. *)
From Verif Require Import Base Base_lemmas BitRing_proofs Mfm_spec Weak_proofs Bs_general_proofs
  Chs_model BitRing_model Mfm_model Types_model System34_model MetaSector_model BitStream_model DiskImage_model DiskImage_spec DiskImage_proofs
  Format_model Raw_model Format2_proofs TreeMap_proofs Pce_spec Pce3_proofs F86_model F86_spec F86_proofs F86b_proofs Layout_spec Layout_proofs Tc_model Tc_spec.
From Coq Require Import Lia.

(* ---- fields ---- *)
Lemma skip_one {A} (x : A) y k rest : skipn k rest = x :: y -> skipn (S k) rest = y.
Proof. intros E. change (S k) with (1 + k). rewrite <- skipn_skipn', E. reflexivity. Qed.
Lemma nth_skip {A} (d : A) k x y rest : skipn k rest = x :: y -> nth k rest d = x.
Proof. intros E. rewrite <- (firstn_skipn k rest), E. assert (L : length (firstn k rest) = k). { rewrite firstn_length. assert (k < length rest); [|lia]. apply Nat.nle_gt. intros G. rewrite skipn_all2 in E by lia. discriminate. } rewrite app_nth2 by lia. rewrite L, Nat.sub_diag. reflexivity. Qed.
Lemma nth_skipn' {A} (d : A) : forall n l k, nth k (skipn n l) d = nth (n + k) l d.
Proof. induction n as [|n IH]; intros l k; [reflexivity|]. destruct l; cbn [skipn Nat.add nth]; [destruct k; reflexivity|apply IH]. Qed.
Definition field_reader (rd : list N -> outcome (N * list N)) (f : list N -> nat -> N) : Prop :=
  forall l p, (p + 2 <= length l -> rd (skipn p l) = Ok (f l p, skipn (p + 2) l)) /\ (length l < p + 2 -> rd (skipn p l) = Err IoError).
Lemma two_bytes (l : list N) p : p + 2 <= length l -> skipn p l = nth p l 0%N :: nth (p + 1) l 0%N :: skipn (p + 2) l.
Proof.
  intros H. destruct (skipn p l) as [|a r] eqn:E; [apply (f_equal (@length _)) in E; rewrite skipn_length in E; cbn in E; lia|].
  rewrite (nth_skip _ _ _ _ _ E). apply skip_one in E. destruct r as [|b r]; [apply (f_equal (@length _)) in E; rewrite skipn_length in E; cbn in E; lia|].
  rewrite Nat.add_1_r, (nth_skip _ _ _ _ _ E). apply skip_one in E. rewrite Nat.add_comm. cbn [Nat.add]. rewrite E. reflexivity.
Qed.
Lemma short_bytes (l : list N) p : length l < p + 2 -> length (skipn p l) < 2. Proof. intros. rewrite skipn_length. lia. Qed.
Lemma le_reader : field_reader read_le16 le16_at.
Proof.
  intros l p. split; intros H; [rewrite two_bytes by exact H; reflexivity|]. apply short_bytes in H.
  destruct (skipn p l) as [|a [|b r]]; [reflexivity|reflexivity|cbn in H; lia].
Qed.
Lemma be_reader : field_reader read_be16 be16_at.
Proof.
  intros l p. split; intros H; [rewrite two_bytes by exact H; reflexivity|]. apply short_bytes in H.
  destruct (skipn p l) as [|a [|b r]]; [reflexivity|reflexivity|cbn in H; lia].
Qed.
Lemma table_read rd f : field_reader rd f -> forall n l p, p + 2 * n <= length l ->
  read_table rd n (skipn p l) = Ok (map (fun i => f l (p + 2 * i)) (seq 0 n), skipn (p + 2 * n) l).
Proof.
  intros R. induction n as [|n IH]; intros l p H.
  - cbn [read_table seq map]. rewrite Nat.mul_0_r, Nat.add_0_r. reflexivity.
  - cbn [read_table]. destruct (R l p) as [A _]. rewrite A by lia. cbn [obind]. rewrite IH by lia. cbn [obind seq map].
    f_equal. f_equal; [|f_equal; lia]. f_equal; [f_equal; lia|]. rewrite <- seq_shift, map_map. apply map_ext. intros i. f_equal. lia.
Qed.
Lemma table_short rd f : field_reader rd f -> forall n l p, p <= length l -> length l < p + 2 * n -> read_table rd n (skipn p l) = Err IoError.
Proof.
  intros R. induction n as [|n IH]; intros l p H1 H; [lia|]. cbn [read_table]. destruct (R l p) as [A B].
  destruct (Nat.le_gt_cases (p + 2) (length l)) as [G|G]; [rewrite A by exact G|rewrite B by exact G; reflexivity].
  cbn [obind]. rewrite IH by lia. reflexivity.
Qed.
Lemma count_until_spec stop f : forall n k, (forall i, i < k -> f i <> stop) -> (k < n -> f k = stop) -> k <= n ->
  count_until stop (map f (seq 0 n)) = k.
Proof.
  assert (G : forall n s k, (forall i, s <= i < s + k -> f i <> stop) -> (k < n -> f (s + k) = stop) -> k <= n -> count_until stop (map f (seq s n)) = k).
  { induction n as [|n IH]; intros s k H1 H2 H3; [cbn; lia|]. cbn [seq map count_until].
    destruct k as [|k].
    - rewrite <- (Nat.add_0_r s) at 1. rewrite H2 by lia. rewrite N.eqb_refl. reflexivity.
    - destruct (N.eqb_spec (f s) stop) as [E|_]; [exfalso; apply (H1 s); [lia|exact E]|]. f_equal. apply IH; [intros i Hi; apply H1; lia| |lia].
      intros Hk. rewrite <- H2 by lia. f_equal. lia. }
  intros n k H1 H2 H3. apply G; auto. intros i Hi. apply H1. lia.
Qed.
Lemma count_until_inv stop f : forall n, let k := count_until stop (map f (seq 0 n)) in
  k <= n /\ (forall i, i < k -> f i <> stop) /\ (k < n -> f k = stop).
Proof.
  assert (G : forall n s, let k := count_until stop (map f (seq s n)) in k <= n /\ (forall i, s <= i < s + k -> f i <> stop) /\ (k < n -> f (s + k) = stop)).
  { induction n as [|n IH]; intros s; [cbn; repeat split; intros; lia|]. cbn [seq map count_until].
    destruct (N.eqb_spec (f s) stop) as [E|E].
    - repeat split; [lia|intros; lia|]. intros _. rewrite Nat.add_0_r. exact E.
    - destruct (IH (S s)) as (A & B & C). repeat split; [lia| |].
      + intros i Hi. destruct (Nat.eq_dec i s) as [->|N0]; [exact E|]. apply B. lia.
      + intros Hk. etransitivity; [|apply C; lia]. f_equal. lia. }
  intros n k. destruct (G n 0) as (A & B & C). repeat split; [exact A| |exact C]. intros i Hi. apply B. cbn. exact (conj (Nat.le_0_l i) Hi).
Qed.

(* ---- header ---- *)
Lemma firstn_nth_byte (file : list N) n k : k < n -> nth k (firstn n file) 0%N = byte_at file k.
Proof. intros H. unfold byte_at. apply nth_firstn. exact H. Qed.
Definition info_of (file : list N) : TcInfo :=
  mkTcInfo (byte_at file 0x100) (byte_at file 0x101) (byte_at file 0x103) (byte_at file 0x104)
    (map (tc_skew file) (seq 0 256)) (map (tc_offset file) (seq 0 256)) (map (tc_size file) (seq 0 256)) (map (tc_flag file) (seq 0 256)).
Lemma header_of file : tc_header file = if length file <? 256 then Err UnsupportedFormat else Ok (firstn 256 file, skipn 256 file).
Proof. unfold tc_header, read_exact. destruct (length file <? 256); reflexivity. Qed.
Lemma info_read file : 256 <= length file -> tc_info (skipn 256 file) = if 0x905 <=? length file then Ok (info_of file) else Err FormatParseError.
Proof.
  intros H. unfold tc_info, read_exact. rewrite skipn_length.
  set (rt := read_table read_le16 256) in *. set (rb := read_table read_be16 256) in *.
  destruct (Nat.ltb_spec (length file - 256) 5) as [A|A].
  - cbn [obind]. destruct (Nat.leb_spec 0x905 (length file)) as [B|B]; [exfalso; clear - A B; change 0x905 with (256 + 2053) in B; lia|reflexivity].
  - cbn [obind]. rewrite skipn_skipn'. change (5 + 256) with 0x105.
    assert (RL : forall p, p <= length file -> rt (skipn p file) =
      if p + 512 <=? length file then Ok (map (fun i => le16_at file (p + 2 * i)) (seq 0 256), skipn (p + 512) file) else Err IoError).
    { intros p Hp. unfold rt. destruct (Nat.leb_spec (p + 512) (length file)); [rewrite (table_read _ _ le_reader) by lia; reflexivity|].
      apply (table_short _ _ le_reader); lia. }
    assert (RB : forall p, p <= length file -> rb (skipn p file) =
      if p + 512 <=? length file then Ok (map (fun i => be16_at file (p + 2 * i)) (seq 0 256), skipn (p + 512) file) else Err IoError).
    { intros p Hp. unfold rb. destruct (Nat.leb_spec (p + 512) (length file)); [rewrite (table_read _ _ be_reader) by lia; reflexivity|].
      apply (table_short _ _ be_reader); lia. }
    clearbody rt rb.
    assert (Short : forall p, p <= 0x905 -> length file < p -> (0x905 <=? length file) = false) by (intros p P1 P2; apply Nat.leb_gt; lia).
    rewrite RL by lia. destruct (Nat.leb_spec (0x105 + 512) (length file)) as [B|B]; cbn [obind]; [|rewrite (Short (0x105 + 512) ltac:(apply Nat.leb_le; reflexivity) B); reflexivity].
    change (0x105 + 512) with 0x305 in *. rewrite RB by exact B. destruct (Nat.leb_spec (0x305 + 512) (length file)) as [C|C]; cbn [obind]; [|rewrite (Short (0x305 + 512) ltac:(apply Nat.leb_le; reflexivity) C); reflexivity].
    change (0x305 + 512) with 0x505 in *. rewrite RL by exact C. destruct (Nat.leb_spec (0x505 + 512) (length file)) as [D|D]; cbn [obind]; [|rewrite (Short (0x505 + 512) ltac:(apply Nat.leb_le; reflexivity) D); reflexivity].
    change (0x505 + 512) with 0x705 in *. rewrite RL by exact D. change (0x705 + 512) with 0x905.
    destruct (Nat.leb_spec 0x905 (length file)) as [F|F]; cbn [obind]; [|reflexivity].
    assert (E : forall k, k < 5 -> nth k (firstn 5 (skipn 256 file)) 0%N = byte_at file (256 + k)).
    { intros k Hk. rewrite nth_firstn by exact Hk. unfold byte_at. clear. apply nth_skipn'. }
    rewrite !E by lia. reflexivity.
Qed.

(* ---- tracks ---- *)
Definition entries (file : list N) (n : nat) : list (N * N) := map (fun i => (tc_offset file i, tc_size file i)) (seq 0 n).
Lemma firstn_entries file n : n <= 256 -> firstn n (combine (tc_offsets (info_of file)) (tc_sizes (info_of file))) = entries file n.
Proof.
  intros H. unfold info_of. cbn [tc_offsets tc_sizes].
  assert (G : forall l, combine (map (tc_offset file) l) (map (tc_size file) l) = map (fun i => (tc_offset file i, tc_size file i)) l).
  { induction l as [|x l IH]; [reflexivity|]. cbn [map combine]. rewrite IH. reflexivity. }
  rewrite G, firstn_map. unfold entries. f_equal. clear G. apply list_eq_nth_error. intros i.
  destruct (Nat.lt_ge_cases i n) as [L|L].
  - rewrite nth_error_firstn. replace (i <? n) with true by (symmetry; apply Nat.ltb_lt; exact L).
    rewrite !(nth_error_nth' _ 0) by (rewrite seq_length; lia). rewrite !seq_nth by lia. reflexivity.
  - rewrite !(proj2 (nth_error_None _ _)); [reflexivity| |]; rewrite ?firstn_length, ?seq_length; lia.
Qed.
Lemma check_spec file_len : forall ts, tc_check ts file_len = Ok tt <->
  Forall (fun e => (fst e <> 0 /\ snd e <> 0 /\ fst e * 256 + snd e <= file_len)%N) ts.
Proof.
  induction ts as [|[o z] ts IH]; [split; [constructor|reflexivity]|]. cbn [tc_check].
  destruct (N.eqb_spec (o * 256) 0) as [A|A]; cbn [orb].
  { split; [discriminate|]. intros F. inversion F as [|? ? (B & _) _]; subst. cbn in B. lia. }
  destruct (N.eqb_spec z 0) as [B|B].
  { split; [discriminate|]. intros F. inversion F as [|? ? (_ & C & _) _]; subst. cbn in C. lia. }
  destruct (N.ltb_spec file_len (o * 256 + z)) as [C|C].
  { split; [discriminate|]. intros F. inversion F as [|? ? (_ & _ & D) _]; subst. cbn in D. lia. }
  rewrite IH. split; intros F; [constructor; [cbn; repeat split; lia|exact F]|inversion F; assumption].
Qed.
Lemma check_never_panics file_len : forall ts, tc_check ts file_len <> Panic.
Proof. induction ts as [|[o z] ts IH]; cbn [tc_check]; [discriminate|]. destruct (_ || _); [discriminate|]. destruct (_ <? _)%N; [discriminate|exact IH]. Qed.
Definition tc_job (file : list N) (sides i : nat) : AddJob :=
  mkJob (mkCh (N.of_nat (i / sides)) (N.of_nat (i mod sides))) (tc_data file i) None None true.
Lemma tracks_jobs rnd file sides : sides = 1 \/ sides = 2 -> forall n i d,
  (forall k, i <= k < i + n -> (tc_offset file k * 256 + tc_size file k <= N.of_nat (length file))%N) -> i + n <= 256 ->
  tc_tracks rnd file (N.of_nat sides) (map (fun i => (tc_offset file i, tc_size file i)) (seq i n)) i (N.of_nat (i mod sides)) d =
  add_jobs rnd (map (tc_job file sides) (seq i n)) d.
Proof.
  intros Hs. induction n as [|n IH]; intros i d Hin Hle; [reflexivity|]. cbn [seq map tc_tracks add_jobs].
  assert (Er : read_exact (N.to_nat (tc_size file i)) (skipn (N.to_nat (tc_offset file i * 256)) file) =
    Ok (tc_data file i, skipn (N.to_nat (tc_size file i)) (skipn (N.to_nat (tc_offset file i * 256)) file))).
  { unfold read_exact. specialize (Hin i ltac:(lia)). rewrite skipn_length.
    replace (length file - N.to_nat (tc_offset file i * 256) <? N.to_nat (tc_size file i)) with false by (symmetry; apply Nat.ltb_ge; lia). reflexivity. }
  cbv zeta. rewrite Er. cbn [obind].
  assert (Ec : as_u16 (N.of_nat (if (N.of_nat sides =? 1)%N then i else i / 2)) = N.of_nat (i / sides)).
  { unfold as_u16. rewrite N.mod_small; [destruct Hs as [-> | ->]; [rewrite Nat.div_1_r|]; reflexivity|].
    pose proof (Nat.div_le_upper_bound i 2 i ltac:(lia) ltac:(lia)) as Hd. clear - Hd Hle. destruct (N.of_nat sides =? 1)%N; lia. }
  rewrite Ec. unfold add_job, tc_job. cbn [aj_ch aj_data aj_weak aj_ct aj_detect]. fold (tc_job file sides).
  destruct (add_track_bitstream _ _ _ _ _ _ _) as [d1 [x| |]]; cbn [obind]; [|reflexivity|reflexivity].
  assert (Eh : (if (N.of_nat (i mod sides) + 1 =? N.of_nat sides)%N then 0 else N.of_nat (i mod sides) + 1)%N = N.of_nat (S i mod sides)).
  { destruct Hs as [-> | ->]; [rewrite !Nat.mod_1_r; reflexivity|].
    assert (D : i mod 2 = 0 /\ S i mod 2 = 1 \/ i mod 2 = 1 /\ S i mod 2 = 0) by dlia. destruct D as [[-> ->]|[-> ->]]; reflexivity. }
  rewrite Eh. change (S i mod sides) with (S i mod sides). rewrite IH; [reflexivity| |lia]. intros k Hk. apply Hin. lia.
Qed.

(* a track made with weak cell detection *)
Lemma new_detect rnd ch data t : bt_new rnd ch data None None true = Ok t -> data <> [] ->
  bt_ch t = ch /\ tc_holds t data.
Proof.
  intros E Hd. split; [eapply bt_new_ch; exact E|]. unfold bt_new in E. cbn [option_map] in E. destruct data as [|x y]; [congruence|]. cbn [obind] in E.
  destruct (mfm_new _ _ _) as [m| |] eqn:Em; cbn [obind] in E; try discriminate.
  set (bits := flat_map byte_bits (x :: y)) in *.
  assert (Lb : length bits <> 0) by (unfold bits; rewrite flat_map_const_length with (k := 8) by reflexivity; cbn [length]; lia).
  assert (Hm : r_bits (m_bits m) = bits) .
  { unfold mfm_new in Em. destruct (_ <? _); [discriminate|]. injection Em as <-. reflexivity. }
  assert (P : plain (m_bits m)).
  { unfold mfm_new in Em. destruct (_ <? _); [discriminate|]. injection Em as <-. unfold plain. cbn [m_bits ring_from r_bits r_wrap r_wrapv]. split; [reflexivity|]. split; [reflexivity|clear - Lb; lia]. }
  destruct (create_weak_bit_mask_spec m 6 P) as (w & Ew & Lw & Hw). rewrite Ew in E. cbn [obind] in E.
  unfold mfm_set_weak_mask_checked in E.
  assert (El : (length w =? mfm_len m) = true) by (rewrite Lw; apply Nat.eqb_refl).
  match type of E with obind (match ?e with _ => _ end) _ = _ => destruct e as [m2| |] eqn:E2 end; cbn [obind] in E; try discriminate.
  2: { exfalso. clear - E2 El. rewrite El in E2. discriminate. }
  assert (H2 : r_bits (m_bits m2) = bits /\ r_bits (m_weak m2) = w).
  { rewrite El in E2. injection E2 as <-. cbn. split; [exact Hm|reflexivity]. }
  assert (G : r_bits (m_bits (bt_data t)) = bits /\ r_bits (m_weak (bt_data t)) = w).
  { clear - E H2. destruct (scan_markers m2) as [L| |]; cbn [obind] in E; try discriminate.
    destruct L as [|z L]; [injection E as <-; exact H2|].
    destruct (create_clock_map _ _) as [cm| |]; cbn [obind] in E; try discriminate.
    destruct (scan_metadata _ _ _) as [[items m']| |] eqn:Es; cbn [obind] in E; try discriminate.
    injection E as <-. cbn [bt_data]. assert (H : moved (set_clock_bits m2 cm) m') by (eapply scan_metadata_moved; eauto). destruct H as [c Hc].
    destruct (data_ranges _); rewrite Hc; exact H2. }
  destruct G as [G1 G2]. change (r_bits (m_bits (bt_data t))) with (cells t) in G1. change (r_bits (m_weak (bt_data t))) with (weak_cells t) in G2.
  unfold tc_holds, weak_cell, cell. rewrite G1, G2. split; [reflexivity|].
  unfold mfm_len, ring_len in Hw, Lw. unfold mfm_data in Hw. rewrite Hm in Hw, Lw. intros i Hi. rewrite (Hw i Hi).
  split; intros [A B]; (split; [exact A|]); intros k Hk; specialize (B k Hk); rewrite (nth_indep bits false true) in * by lia; assumption.
Qed.
