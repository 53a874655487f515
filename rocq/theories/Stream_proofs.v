(* Stream_proofs.v - bit streams holding bytes at even clock alignment, with address marks. *)
From Verif Require Import Base Base_lemmas BitRing_model RangeCheck_model Mfm_model Mfm_spec BitRing_proofs Mfm_proofs Marker_proofs.

Lemma circ_write_nth l off src j : off + length src <= length l ->
  nth j (circ_write l off src) false =
    if (off <=? j) && (j <? off + length src) then nth (j - off) src false else nth j l false.
Proof.
  intros H. destruct (Nat.leb_spec off j) as [H1|H1]; cbn [andb].
  - destruct (Nat.ltb_spec j (off + length src)) as [H2|H2].
    + pose proof (circ_write_inside l off src (j - off) ltac:(lia) ltac:(lia)) as E.
      replace (off + (j - off)) with j in E by lia. rewrite <- E. unfold circ.
      rewrite circ_write_length, Nat.mod_small by lia. reflexivity.
    + apply circ_write_outside. intros k Hk. rewrite Nat.mod_small by lia. lia.
  - apply circ_write_outside. intros k Hk. rewrite Nat.mod_small by lia. lia.
Qed.

(* ---------- bits of bytes ---------- *)
Lemma nth_bits_of B b j : j < 8 -> nth (8 * b + j) (bits_of B) false = N.testbit (nth b B 0%N) (N.of_nat (7 - j)).
Proof.
  revert b; induction B as [|x B IH]; intros b Hj.
  - destruct b, j; cbn [bits_of flat_map nth]; try reflexivity;
    (destruct (8 * _ + _); reflexivity).
  - unfold bits_of; cbn [flat_map]. destruct b as [|b].
    + rewrite app_nth1 by (rewrite byte_bits_length; lia).
      do 8 (destruct j as [|j]; [reflexivity|]). lia.
    + rewrite app_nth2 by (rewrite byte_bits_length; lia). rewrite byte_bits_length.
      replace (8 * S b + j - 8) with (8 * b + j) by lia. apply IH; auto.
Qed.

(* l carries the bytes B: 16 bitcells per byte, data bits at odd positions. *)
Definition carries (l : list bool) (B : list N) : Prop :=
  length l = 16 * length B /\ forall k, dbit l k = nth k (bits_of B) false.

Lemma carries_bit l B b j : carries l B -> j < 8 -> dbit l (8 * b + j) = N.testbit (nth b B 0%N) (N.of_nat (7 - j)).
Proof. intros [_ H] Hj. rewrite H. apply nth_bits_of; auto. Qed.

Lemma carries_mfm prev B : carries (mfm prev (bits_of B)) B.
Proof.
  split; [rewrite mfm_length, bits_of_length; lia|]. intros k. unfold dbit. apply mfm_nth_data.
Qed.

Lemma circ_in l i : i < length l -> circ l i = nth i l false.
Proof. intros H; unfold circ; rewrite Nat.mod_small; auto. Qed.

Lemma firstn_bits n B : firstn (8 * n) (bits_of B) = bits_of (firstn n B).
Proof.
  revert B; induction n as [|n IH]; intros [|x B]; try reflexivity.
  replace (8 * S n) with (8 + 8 * n) by lia. unfold bits_of; cbn [firstn flat_map].
  rewrite firstn_app, byte_bits_length. rewrite firstn_all2 by (rewrite byte_bits_length; lia).
  replace (8 + 8 * n - 8) with (8 * n) by lia. f_equal. apply IH.
Qed.
Lemma skipn_bits n B : skipn (8 * n) (bits_of B) = bits_of (skipn n B).
Proof.
  revert B; induction n as [|n IH]; intros [|x B]; try reflexivity.
  replace (8 * S n) with (8 + 8 * n) by lia. unfold bits_of; cbn [skipn flat_map].
  rewrite skipn_app, byte_bits_length. rewrite skipn_all2 by (rewrite byte_bits_length; lia).
  replace (8 + 8 * n - 8) with (8 * n) by lia. apply IH.
Qed.

Lemma data_window_carries l B b n : carries l B -> b + n <= length B ->
  data_window l (16 * b) (8 * n) = bits_of (slice B b n).
Proof.
  intros [Hl Hd] H. unfold slice. rewrite <- firstn_bits, <- skipn_bits.
  apply list_eq_nth_error. intros k. unfold data_window. rewrite nth_error_map_seq.
  rewrite nth_error_firstn, nth_error_skipn. destruct (Nat.ltb_spec k (8 * n)) as [Hk|Hk]; [|reflexivity].
  rewrite (nth_error_nth' (bits_of B) false) by (rewrite bits_of_length; lia).
  f_equal. cbn [plus]. rewrite <- Hd. unfold dbit. rewrite circ_in by lia. f_equal; lia.
Qed.

Lemma slice_bytes_ok B b n : bytes_ok B = true -> bytes_ok (slice B b n) = true.
Proof.
  rewrite !bytes_ok_Forall. intros H. unfold slice.
  assert (G : forall k (l : list N), Forall (fun b => (b < 256)%N) l -> Forall (fun b => (b < 256)%N) (skipn k l)).
  { induction k; intros [|x l] Hl; cbn [skipn]; auto. apply IHk. inversion Hl; auto. }
  assert (G2 : forall k (l : list N), Forall (fun b => (b < 256)%N) l -> Forall (fun b => (b < 256)%N) (firstn k l)).
  { induction k; intros [|x l] Hl; cbn [firstn]; auto. inversion Hl; subst; constructor; auto. }
  auto.
Qed.

Lemma read_carries l B b n : carries l B -> bytes_ok B = true -> b + n <= length B ->
  bytes_of n (data_window l (16 * b) (8 * n)) = slice B b n.
Proof.
  intros Hc Hb H. rewrite (data_window_carries _ B) by auto.
  pose proof (bytes_of_bits_of (slice B b n) (slice_bytes_ok _ _ _ Hb)) as E.
  rewrite slice_length in E by auto. exact E.
Qed.

(* ---------- sequential reading ---------- *)
(* from clock position c no position is shifted for n bits *)
Definition steady (m : Mfm) (c n : nat) : Prop :=
  forall k, k < n -> clk m (c + 2 * k) = true \/ clk m (c + 2 * k + 1) = false.

Lemma steady_nudge m c n k : mfm_wf m -> steady m c n -> k < n -> nudge m (c + 2 * k) = Ok (c + 2 * k).
Proof.
  intros Hw H Hk. rewrite nudge_spec by auto. destruct (H k Hk) as [-> | ->]; rewrite ?andb_false_r; reflexivity.
Qed.
Lemma with_cursor_same m : with_cursor m (m_cursor m) = m.
Proof. destruct m; reflexivity. Qed.
Lemma with_cursor_twice m a b : with_cursor (with_cursor m a) b = with_cursor m b.
Proof. reflexivity. Qed.

Lemma weak_at_next m c : mfm_wf m -> weak_at m c = false -> r_bits (m_weak m) <> [] ->
  (if m_weak_enabled m then
     let! w := ring_get (m_weak m) c in if w then Ok (false) else ring_get (m_bits m) c
   else ring_get (m_bits m) c) = Ok (circ (mfm_data m) c).
Proof.
  intros (H1 & H2 & H3 & H4) Hw Hne. destruct H4 as [H4|H4]; [congruence|].
  unfold weak_at in Hw. destruct (m_weak_enabled m); [|apply ring_get_plain; auto].
  assert (E : ring_is_empty (m_weak m) = false) by (unfold ring_is_empty; destruct (r_bits (m_weak m)); congruence).
  rewrite E in Hw. cbn [andb negb] in Hw.
  rewrite (ring_get_plain (m_weak m)) by auto. cbn [obind]. rewrite Hw. apply ring_get_plain; auto.
Qed.

Lemma mfm_next_spec rnd m c n : mfm_wf m -> r_bits (m_weak m) <> [] -> steady m c (S n) -> weak_at m (c + 1) = false ->
  mfm_next rnd (with_cursor m c) = Ok (circ (mfm_data m) (c + 1), with_cursor m (c + 2)).
Proof.
  intros Hw Hne Hs Hk. unfold mfm_next. cbn [with_cursor m_cursor].
  change (nudge (with_cursor m c) c) with (nudge m c).
  pose proof (steady_nudge m c (S n) 0 Hw Hs ltac:(lia)) as E. rewrite Nat.mul_0_r, Nat.add_0_r in E. rewrite E.
  cbn [obind]. cbn [with_cursor m_weak_enabled m_weak m_bits].
  pose proof Hw as (H1 & H2 & H3 & [H4|H4]); [congruence|].
  unfold weak_at in Hk. destruct (m_weak_enabled m).
  - assert (E2 : ring_is_empty (m_weak m) = false) by (unfold ring_is_empty; destruct (r_bits (m_weak m)); congruence).
    rewrite E2 in Hk. cbn [andb negb] in Hk.
    rewrite (ring_get_plain (m_weak m)) by auto. cbn [obind]. rewrite Hk, ring_get_plain by auto. reflexivity.
  - rewrite ring_get_plain by auto. reflexivity.
Qed.

Lemma mfm_read_bits rnd m : mfm_wf m -> r_bits (m_weak m) <> [] ->
  forall n s c byte, steady m c n -> (forall k, k < n -> weak_at m (c + 1 + 2 * k) = false) ->
  ofold (fun '(byte, m) (_ : nat) => let! (b, m') := mfm_next rnd m in Ok (as_u8 (2 * byte + b2N b), m'))
        (seq s n) (byte, with_cursor m c)
  = Ok (fold_left (fun a b => as_u8 (2 * a + b2N b)) (map (fun k => circ (mfm_data m) (c + 1 + 2 * k)) (seq 0 n)) byte,
        with_cursor m (c + 2 * n)).
Proof.
  intros Hw Hne. induction n as [|n IH]; intros s c byte Hs Hk; cbn [seq ofold map fold_left].
  - rewrite Nat.mul_0_r, Nat.add_0_r. reflexivity.
  - rewrite (mfm_next_spec rnd m c n Hw Hne Hs); [|specialize (Hk 0 ltac:(lia)); rewrite Nat.mul_0_r, Nat.add_0_r in Hk; exact Hk].
    cbn [obind]. rewrite IH.
    + rewrite Nat.mul_0_r, Nat.add_0_r. f_equal. f_equal; [|f_equal; lia].
      rewrite (map_seq_shift _ 1). f_equal. apply map_ext. intros k. f_equal. lia.
    + intros k Hlt. specialize (Hs (S k) ltac:(lia)). replace (c + 2 * S k) with (c + 2 + 2 * k) in Hs by lia. exact Hs.
    + intros k Hlt. specialize (Hk (S k) ltac:(lia)). replace (c + 1 + 2 * S k) with (c + 2 + 1 + 2 * k) in Hk by lia. exact Hk.
Qed.

Lemma mfm_read_loop_spec rnd m : mfm_wf m -> r_bits (m_weak m) <> [] ->
  forall n c, steady m c (8 * n) -> no_weak m c n ->
  mfm_read_loop rnd n (with_cursor m c) = Ok (bytes_of n (data_window (mfm_data m) c (8 * n)), with_cursor m (c + 16 * n)).
Proof.
  intros Hw Hne. induction n as [|n IH]; intros c Hs Hk; cbn [mfm_read_loop].
  - rewrite Nat.mul_0_r, Nat.add_0_r. reflexivity.
  - unfold mfm_read_byte. rewrite (mfm_read_bits rnd m Hw Hne 8 0 c 0%N); cycle 1.
    { intros k Hlt; apply Hs; lia. }
    { intros k Hlt. replace (c + 1 + 2 * k) with (c + (1 + 2 * k)) by lia. apply Hk. lia. }
    cbn [obind]. rewrite IH; cycle 1.
    { intros k Hlt. specialize (Hs (8 + k) ltac:(lia)).
      replace (c + 2 * (8 + k)) with (c + 2 * 8 + 2 * k) in Hs by lia. exact Hs. }
    { intros k Hlt. replace (c + 2 * 8 + k) with (c + (16 + k)) by lia. apply Hk. lia. }
    cbn [obind]. f_equal. f_equal; [|f_equal; lia].
    replace (8 * S n) with (8 + 8 * n) by lia. rewrite data_window_app, bytes_of_app8 by apply data_window_length.
    rewrite <- (fold_bits8 (data_window (mfm_data m) c 8)) by apply data_window_length. reflexivity.
Qed.

(* ---------- missing clocks after writes ---------- *)
Lemma clocks_ok_weaken l (C D : nat -> Prop) : clocks_ok l C -> (forall k, C k -> D k) -> clocks_ok l D.
Proof. intros H HD k H1 H2 H3 H4. apply HD. apply H; auto. Qed.

(* writing an MFM encoded run: only the clock just after it can be missing *)
Lemma clocks_ok_write l C p ds : clocks_ok l C -> 2 * p + 2 * length ds <= length l ->
  clocks_ok (circ_write l (2 * p) (mfm false ds))
            (fun k => (C k /\ ~ (p <= k < p + length ds)) \/ k = p + length ds).
Proof.
  intros HC Hl k H1 H2 H3 H4. rewrite circ_write_length in H1.
  assert (E : forall j, nth j (circ_write l (2 * p) (mfm false ds)) false =
     if (2 * p <=? j) && (j <? 2 * p + 2 * length ds) then nth (j - 2 * p) (mfm false ds) false else nth j l false).
  { intros j. rewrite circ_write_nth; rewrite mfm_length; auto; lia. }
  unfold dbit, cbit in H2, H3, H4. rewrite E in H2, H3, H4. clear E.
  destruct (Nat.eq_dec (S k) (p + length ds)) as [Heq|Hne]; [right; auto|].
  destruct (Nat.leb_spec p (S k)) as [Hp|Hp]; cycle 1.
  { (* before *)
    replace ((2 * p <=? 2 * k + 1)) with false in H2 by (symmetry; apply Nat.leb_gt; lia).
    replace ((2 * p <=? 2 * S k)) with false in H3 by (symmetry; apply Nat.leb_gt; lia).
    replace ((2 * p <=? 2 * S k + 1)) with false in H4 by (symmetry; apply Nat.leb_gt; lia).
    left. split; [apply HC; auto|lia]. }
  destruct (Nat.ltb_spec (S k) (p + length ds)) as [Hq|Hq]; cycle 1.
  { replace (2 * k + 1 <? 2 * p + 2 * length ds) with false in H2 by (symmetry; apply Nat.ltb_ge; lia).
    replace (2 * S k <? 2 * p + 2 * length ds) with false in H3 by (symmetry; apply Nat.ltb_ge; lia).
    replace (2 * S k + 1 <? 2 * p + 2 * length ds) with false in H4 by (symmetry; apply Nat.ltb_ge; lia).
    rewrite andb_false_r in *. left. split; [apply HC; auto|lia]. }
  (* inside: impossible *)
  exfalso.
  replace (2 * p <=? 2 * S k) with true in H3 by (symmetry; apply Nat.leb_le; lia).
  replace (2 * p <=? 2 * S k + 1) with true in H4 by (symmetry; apply Nat.leb_le; lia).
  replace (2 * S k <? 2 * p + 2 * length ds) with true in H3 by (symmetry; apply Nat.ltb_lt; lia).
  replace (2 * S k + 1 <? 2 * p + 2 * length ds) with true in H4 by (symmetry; apply Nat.ltb_lt; lia).
  cbn [andb] in H3, H4.
  set (j := S k - p) in *. assert (Hj : S k = p + j) by lia.
  replace (2 * S k - 2 * p) with (2 * j) in H3 by lia. replace (2 * S k + 1 - 2 * p) with (2 * j + 1) in H4 by lia.
  rewrite mfm_nth_clock in H3 by lia. rewrite mfm_nth_data in H4. rewrite H4 in H3.
  destruct (Nat.eq_dec j 0) as [Hz|Hz]; [rewrite Hz in H3; discriminate|].
  replace (2 * p <=? 2 * k + 1) with true in H2 by (symmetry; apply Nat.leb_le; lia).
  replace (2 * k + 1 <? 2 * p + 2 * length ds) with true in H2 by (symmetry; apply Nat.ltb_lt; lia).
  cbn [andb] in H2. replace (2 * k + 1 - 2 * p) with (2 * (j - 1) + 1) in H2 by lia. rewrite mfm_nth_data in H2.
  destruct j as [|j]; [lia|]. cbn [nth] in H3. replace (S j - 1) with j in H2 by lia. rewrite H2 in H3. discriminate.
Qed.

Lemma dbit_write l p ds k : 2 * p + 2 * length ds <= length l ->
  dbit (circ_write l (2 * p) (mfm false ds)) k =
    if (p <=? k) && (k <? p + length ds) then nth (k - p) ds false else dbit l k.
Proof.
  intros Hl. unfold dbit. rewrite circ_write_nth by (rewrite mfm_length; lia). rewrite mfm_length.
  replace (2 * p <=? 2 * k + 1) with (p <=? k).
  2:{ destruct (Nat.leb_spec p k), (Nat.leb_spec (2 * p) (2 * k + 1)); lia || reflexivity. }
  replace (2 * k + 1 <? 2 * p + 2 * length ds) with (k <? p + length ds).
  2:{ destruct (Nat.ltb_spec k (p + length ds)), (Nat.ltb_spec (2 * k + 1) (2 * p + 2 * length ds)); lia || reflexivity. }
  destruct (Nat.leb_spec p k); cbn [andb]; auto. destruct (k <? p + length ds); auto.
  replace (2 * k + 1 - 2 * p) with (2 * (k - p) + 1) by lia. apply mfm_nth_data.
Qed.

(* writing bytes into a stream that carries B *)
Lemma nth_bits_splice B b src k : b + length src <= length B ->
  nth k (bits_of (splice B b src)) false =
    if (8 * b <=? k) && (k <? 8 * b + 8 * length src) then nth (k - 8 * b) (bits_of src) false else nth k (bits_of B) false.
Proof.
  intros H. pose proof (Nat.div_mod k 8 ltac:(lia)) as E. pose proof (Nat.mod_upper_bound k 8 ltac:(lia)) as Hm.
  set (i := k / 8) in *. set (j := k mod 8) in *. clearbody i j. subst k.
  rewrite !nth_bits_of by auto.
  assert (G : nth i (splice B b src) 0%N = if (b <=? i) && (i <? b + length src) then nth (i - b) src 0%N else nth i B 0%N).
  { pose proof (nth_error_splice B b src i H) as G.
    destruct ((b <=? i) && (i <? b + length src)).
    - apply (f_equal (fun o => match o with Some x => x | None => 0%N end)) in G.
      rewrite <- !nth_default_eq in *. exact G.
    - rewrite <- !nth_default_eq. unfold nth_default. rewrite G. reflexivity. }
  rewrite G. clear G.
  destruct (Nat.leb_spec b i), (Nat.leb_spec (8 * b) (8 * i + j)); try lia; cbn [andb]; auto.
  destruct (Nat.ltb_spec i (b + length src)), (Nat.ltb_spec (8 * i + j) (8 * b + 8 * length src)); try lia; auto.
  replace (8 * i + j - 8 * b) with (8 * (i - b) + j) by lia. rewrite nth_bits_of by auto. reflexivity.
Qed.

Lemma carries_write l B b src : carries l B -> b + length src <= length B ->
  carries (circ_write l (16 * b) (mfm false (bits_of src))) (splice B b src).
Proof.
  intros [Hl Hd] H. split.
  - rewrite circ_write_length, splice_length; auto.
  - intros k. rewrite nth_bits_splice by auto. replace (16 * b) with (2 * (8 * b)) by lia.
    rewrite dbit_write by (rewrite bits_of_length; lia). rewrite bits_of_length, Hd. reflexivity.
Qed.

(* overwriting 64 cells with a mark whose data bits are dat *)
Lemma carries_mark l B b w dat : carries l B -> length w = 64 -> length dat = 4 -> b + 4 <= length B ->
  (forall j, j < 32 -> nth (2 * j + 1) w false = nth j (bits_of dat) false) ->
  carries (circ_write l (16 * b) w) (splice B b dat).
Proof.
  intros [Hl Hd] Hw Hdat H Hwd. split.
  - rewrite circ_write_length, splice_length; auto. lia.
  - intros k. rewrite nth_bits_splice by lia. rewrite Hdat. unfold dbit. rewrite circ_write_nth by lia. rewrite Hw.
    replace (16 * b <=? 2 * k + 1) with (8 * b <=? k).
    2:{ destruct (Nat.leb_spec (8 * b) k), (Nat.leb_spec (16 * b) (2 * k + 1)); lia || reflexivity. }
    replace (2 * k + 1 <? 16 * b + 64) with (k <? 8 * b + 8 * 4).
    2:{ destruct (Nat.ltb_spec k (8 * b + 8 * 4)), (Nat.ltb_spec (2 * k + 1) (16 * b + 64)); lia || reflexivity. }
    destruct (Nat.leb_spec (8 * b) k); cbn [andb]; [|apply Hd].
    destruct (Nat.ltb_spec k (8 * b + 8 * 4)); [|apply Hd].
    replace (2 * k + 1 - 16 * b) with (2 * (k - 8 * b) + 1) by lia. apply Hwd. lia.
Qed.

Lemma clocks_ok_mark l C b w (V : nat -> Prop) : clocks_ok l C -> length w = 64 -> 16 * b + 64 <= length l ->
  nth 1 w false = true ->
  (nth 63 w false = false -> dbit l (8 * b + 31) = false) ->
  (forall j, S j < 32 -> nth (2 * j + 1) w false = false -> nth (2 * S j) w false = false ->
             nth (2 * S j + 1) w false = false -> V (S j)) ->
  clocks_ok (circ_write l (16 * b) w) (fun k => C k \/ exists j, V j /\ k = 8 * b + j).
Proof.
  intros HC Hw Hl H1st Hlast HV k H1 H2 H3 H4. rewrite circ_write_length in H1.
  assert (E : forall j, nth j (circ_write l (16 * b) w) false =
     if (16 * b <=? j) && (j <? 16 * b + 64) then nth (j - 16 * b) w false else nth j l false).
  { intros j. rewrite circ_write_nth; rewrite Hw; auto. }
  unfold dbit, cbit in H2, H3, H4. rewrite E in H2, H3, H4. clear E.
  destruct (Nat.ltb_spec (S k) (8 * b)) as [Hp|Hp].
  { replace (16 * b <=? 2 * k + 1) with false in H2 by (symmetry; apply Nat.leb_gt; lia).
    replace (16 * b <=? 2 * S k) with false in H3 by (symmetry; apply Nat.leb_gt; lia).
    replace (16 * b <=? 2 * S k + 1) with false in H4 by (symmetry; apply Nat.leb_gt; lia).
    left. apply HC; auto. }
  destruct (Nat.leb_spec (8 * b + 32) (S k)) as [Hq|Hq].
  { replace (2 * S k <? 16 * b + 64) with false in H3 by (symmetry; apply Nat.ltb_ge; lia).
    replace (2 * S k + 1 <? 16 * b + 64) with false in H4 by (symmetry; apply Nat.ltb_ge; lia).
    rewrite andb_false_r in H3, H4. left. apply HC; auto.
    destruct (Nat.leb_spec (16 * b) (2 * k + 1)); [|lia]. cbn [andb] in H2.
    destruct (Nat.ltb_spec (2 * k + 1) (16 * b + 64)); [|exact H2].
    assert (k = 8 * b + 31) by lia. subst k. apply Hlast. rewrite <- H2. f_equal; lia. }
  replace (16 * b <=? 2 * S k) with true in H3 by (symmetry; apply Nat.leb_le; lia).
  replace (16 * b <=? 2 * S k + 1) with true in H4 by (symmetry; apply Nat.leb_le; lia).
  replace (2 * S k <? 16 * b + 64) with true in H3 by (symmetry; apply Nat.ltb_lt; lia).
  replace (2 * S k + 1 <? 16 * b + 64) with true in H4 by (symmetry; apply Nat.ltb_lt; lia).
  cbn [andb] in H3, H4.
  destruct (Nat.eq_dec (S k) (8 * b)) as [Hz|Hz].
  { exfalso. replace (2 * S k + 1 - 16 * b) with 1 in H4 by lia. congruence. }
  replace (16 * b <=? 2 * k + 1) with true in H2 by (symmetry; apply Nat.leb_le; lia).
  replace (2 * k + 1 <? 16 * b + 64) with true in H2 by (symmetry; apply Nat.ltb_lt; lia).
  cbn [andb] in H2. right. exists (S (k - 8 * b)). split; [|lia]. apply HV; [lia| | |].
  - rewrite <- H2. f_equal; lia.
  - rewrite <- H3. f_equal; lia.
  - rewrite <- H4. f_equal; lia.
Qed.

(* ---------- where marks can be found ---------- *)
(* A1-type marks at byte offsets A, at most one C2-type mark, and possible missing clocks at the
   first bit of the bytes in P *)
Definition gaps (A : list nat) (I : option nat) (P : list nat) (k : nat) : Prop :=
  (exists o, In o A /\ (k = 8 * o + 5 \/ k = 8 * o + 13 \/ k = 8 * o + 21)) \/
  (exists o, I = Some o /\ (k = 8 * o + 4 \/ k = 8 * o + 12 \/ k = 8 * o + 20)) \/
  (exists e, In e P /\ k = 8 * e).
Definition spaced (d : nat) (L : list nat) : Prop := forall a b, In a L -> In b L -> a < b -> a + d <= b.

Definition mark_data (l : list bool) (A : list nat) (I : option nat) : Prop :=
  (forall o, In o A -> dbit l (8 * o + 1) = false /\ dbit l (8 * o + 7) = true /\ dbit l (8 * o + 8) = true) /\
  (forall o, I = Some o -> 1 <= o /\ dbit l (8 * o - 1) = false /\ dbit l (8 * o + 6) = true /\ dbit l (8 * o + 9) = true).

Lemma gaps_next A I P q r : spaced 4 A -> spaced 2 P ->
  gaps A I P q -> q mod 8 = r -> r < 8 -> gaps A I P (q + 8) -> gaps A I P (q + 16) ->
  (exists o, In o A /\ q = 8 * o + 5) \/ (exists o, I = Some o /\ q = 8 * o + 4).
Proof.
  intros HA HP H0 _ _ H1 H2.
  assert (SA : forall a b, In a A -> In b A -> a < b -> a + 4 <= b) by exact HA.
  assert (SP : forall a b, In a P -> In b P -> a < b -> a + 2 <= b) by exact HP.
  destruct H0 as [(o & Ho & E)|[(o & Ho & E)|(e & He & E)]].
  - destruct E as [E|[E|E]]; [left; eauto| |]; exfalso.
    + destruct H2 as [(x & Hx & F)|[(x & Hx & F)|(x & Hx & F)]]; try lia.
      specialize (SA o x Ho Hx). lia.
    + destruct H1 as [(x & Hx & F)|[(x & Hx & F)|(x & Hx & F)]]; try lia.
      specialize (SA o x Ho Hx). lia.
  - destruct E as [E|[E|E]]; [right; eauto| |]; exfalso.
    + destruct H2 as [(x & Hx & F)|[(x & Hx & F)|(x & Hx & F)]]; try lia. assert (x = o) by congruence. lia.
    + destruct H1 as [(x & Hx & F)|[(x & Hx & F)|(x & Hx & F)]]; try lia. assert (x = o) by congruence. lia.
  - exfalso. destruct H1 as [(x & Hx & F)|[(x & Hx & F)|(x & Hx & F)]]; try lia.
    specialize (SP e x He Hx). lia.
Qed.

Section Marks.
Context (l : list bool) (A : list nat) (I : option nat) (P : list nat).
Hypothesis (HC : clocks_ok l (gaps A I P)) (HA : spaced 4 A) (HP : spaced 2 P) (HD : mark_data l A I).

Lemma a1_found p : occurs l A1_MASK A1_PAT p -> exists o, In o A /\ p = 16 * o.
Proof.
  intros H. destruct HD as [HD1 HD2]. destruct (even_odd_split p) as [q [-> | ->]].
  - destruct (a1_even _ _ _ HC H) as (C1 & C2 & C3 & D).
    destruct (gaps_next A I P (q + 5) _ HA HP C1 eq_refl) as [(o & Ho & E)|(o & Ho & E)];
      [apply Nat.mod_upper_bound; lia|replace (q + 5 + 8) with (q + 13) by lia; auto|replace (q + 5 + 16) with (q + 21) by lia; auto| |].
    + exists o. split; auto. lia.
    + exfalso. destruct (HD2 o Ho) as (G0 & G1 & _). specialize (D 0 ltac:(lia)). rewrite Nat.add_0_r in D.
      replace (8 * o - 1) with q in G1 by lia. rewrite D in G1. discriminate.
  - exfalso. destruct (a1_odd _ _ _ HC H) as (C1 & C2 & C3 & D).
    destruct (gaps_next A I P (q + 2) _ HA HP C1 eq_refl) as [(o & Ho & E)|(o & Ho & E)];
      [apply Nat.mod_upper_bound; lia|replace (q + 2 + 8) with (q + 10) by lia; auto|replace (q + 2 + 16) with (q + 18) by lia; auto| |].
    + destruct (HD1 o Ho) as (_ & _ & G1). specialize (D 5 ltac:(lia)).
      replace (q + 5) with (8 * o + 8) in D by lia. rewrite D in G1. discriminate.
    + destruct (HD2 o Ho) as (_ & _ & _ & G1). specialize (D 7 ltac:(lia)).
      replace (q + 7) with (8 * o + 9) in D by lia. rewrite D in G1. discriminate.
Qed.

Lemma c2_found p : occurs l A1_MASK C2_PAT p -> exists o, I = Some o /\ p = 16 * o.
Proof.
  intros H. destruct HD as [HD1 HD2]. destruct (even_odd_split p) as [q [-> | ->]].
  - destruct (c2_even _ _ _ HC H) as (C1 & C2 & C3 & D).
    destruct (gaps_next A I P (q + 4) _ HA HP C1 eq_refl) as [(o & Ho & E)|(o & Ho & E)];
      [apply Nat.mod_upper_bound; lia|replace (q + 4 + 8) with (q + 12) by lia; auto|replace (q + 4 + 16) with (q + 20) by lia; auto| |].
    + exfalso. destruct (HD1 o Ho) as (G1 & _). specialize (D 0 ltac:(lia)). rewrite Nat.add_0_r in D.
      replace (8 * o + 1) with q in G1 by lia. rewrite D in G1. discriminate.
    + exists o. split; auto. lia.
  - exfalso. destruct (c2_odd _ _ _ HC H) as (C1 & C2 & D).
    assert (SP : forall a b, In a P -> In b P -> a < b -> a + 2 <= b) by exact HP.
    assert (SA : forall a b, In a A -> In b A -> a < b -> a + 4 <= b) by exact HA.
    destruct C1 as [(o & Ho & E)|[(o & Ho & E)|(e & He & E)]].
    + destruct (HD1 o Ho) as (_ & G1 & _). destruct E as [E|[E|E]].
      * specialize (D 10 ltac:(lia)). replace (q + 10) with (8 * o + 7) in D by lia. rewrite D in G1. discriminate.
      * specialize (D 2 ltac:(lia)). replace (q + 2) with (8 * o + 7) in D by lia. rewrite D in G1. discriminate.
      * destruct C2 as [(x & Hx & F)|[(x & Hx & F)|(x & Hx & F)]]; try lia. specialize (SA o x Ho Hx). lia.
    + destruct (HD2 o Ho) as (G0 & G1 & G2 & _). destruct E as [E|[E|E]].
      * specialize (D 3 ltac:(lia)). replace (q + 3) with (8 * o - 1) in D by lia. rewrite D in G1. discriminate.
      * specialize (D 2 ltac:(lia)). replace (q + 2) with (8 * o + 6) in D by lia. rewrite D in G2. discriminate.
      * destruct C2 as [(x & Hx & F)|[(x & Hx & F)|(x & Hx & F)]]; try lia. assert (x = o) by congruence. lia.
    + destruct C2 as [(x & Hx & F)|[(x & Hx & F)|(x & Hx & F)]]; try lia. specialize (SP e x He Hx). lia.
Qed.
End Marks.

(* a mark written in the stream *)
Definition mark_at (l : list bool) (o : nat) (v : N) : Prop :=
  16 * o + 64 <= length l /\ slice l (16 * o) 64 = map (fun i => N.testbit v (N.of_nat (63 - i))) (seq 0 64).
Lemma mark_win l o v : (v < 2 ^ 64)%N -> mark_at l o v -> win64 l (16 * o) = v.
Proof.
  intros Hv [Hl H]. unfold win64. rewrite H. apply N.bits_inj. intros n.
  destruct (N.ltb_spec n 64) as [Hn|Hn].
  - pose proof (testbit_bits_val (map (fun i => N.testbit v (N.of_nat (63 - i))) (seq 0 64)) (63 - N.to_nat n)) as E.
    rewrite map_length, seq_length in E. specialize (E ltac:(lia)).
    replace (N.of_nat (64 - 1 - (63 - N.to_nat n))) with n in E by lia. rewrite E. clear E.
    rewrite (nth_indep _ false (N.testbit v (N.of_nat (63 - 0)))) by (rewrite map_length, seq_length; lia).
    rewrite (map_nth (fun i => N.testbit v (N.of_nat (63 - i)))), seq_nth by lia. f_equal. lia.
  - rewrite (testbit_high v 64) by auto.
    apply (testbit_high _ 64); auto.
    pose proof (bits_val_lt (map (fun i => N.testbit v (N.of_nat (63 - i))) (seq 0 64))) as G.
    rewrite map_length, seq_length in G. exact G.
Qed.
Lemma mark_at_outside l l' o v : mark_at l o v -> length l' = length l ->
  (forall j, 16 * o <= j < 16 * o + 64 -> nth j l' false = nth j l false) -> mark_at l' o v.
Proof.
  intros [Hl H] El Hj. split; [lia|]. rewrite <- H. apply list_eq_nth_error. intros k.
  unfold slice. rewrite !nth_error_firstn. destruct (Nat.ltb_spec k 64); auto.
  rewrite !nth_error_skipn. rewrite !(nth_error_nth' _ false) by lia. f_equal. apply Hj. lia.
Qed.
