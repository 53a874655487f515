(* Fm_proofs.v - lemmas about the FM codec. *)
From Verif Require Import Base Base_lemmas BitRing_model RangeCheck_model Mfm_model Mfm_spec BitRing_proofs Mfm_proofs Marker_proofs Fm_model Fm_spec.

Lemma gather_spec bits idx : (forall i, In i idx -> i < length bits) -> length idx = 8 ->
  fm_gather bits idx = Ok (bits_val (map (fun i => nth i bits false) idx)).
Proof.
  intros H Hl. unfold fm_gather.
  assert (G : forall acc, ofold (fun byte bi => let! b := oindex bits bi in Ok (as_u8 (2 * byte + b2N b))) idx acc
     = Ok (fold_left (fun a (x : bool) => as_u8 (2 * a + b2N x)) (map (fun i => nth i bits false) idx) acc)).
  { clear Hl. induction idx as [|i idx IH]; intros acc; [reflexivity|]. cbn [ofold map fold_left].
    rewrite (oindex_nth bits i false) by (apply H; left; reflexivity). cbn [obind]. apply IH. intros j Hj. apply H. right; exact Hj. }
  rewrite G. f_equal. apply fold_bits8. rewrite map_length. exact Hl.
Qed.

Lemma splice_cons (l : list bool) off b t : off < length l -> splice l off (b :: t) = splice (upd l off b) (S off) t.
Proof.
  intros H. unfold splice. cbn [length]. replace (off + S (length t)) with (S off + length t) by lia.
  rewrite firstn_upd, skipn_upd by lia.
  assert (E : upd (firstn (S off) l) off b = firstn off l ++ [b]).
  { clear t. revert l H; induction off as [|off IH]; intros [|x l] H; cbn [length] in H; try lia; [reflexivity|].
    cbn [firstn upd app]. f_equal. apply IH. lia. }
  rewrite E, <- app_assoc. reflexivity.
Qed.
Definition put (st : list bool * nat) (bit : bool) : outcome (list bool * nat) :=
  let '(l, off) := st in let! l' := bits_set l off bit in Ok (l', S off).
Lemma put_spec src : forall l off, off + length src <= length l -> ofold put src (l, off) = Ok (splice l off src, off + length src).
Proof.
  induction src as [|b t IH]; intros l off H; cbn [ofold length] in *.
  - unfold splice. cbn [length app]. rewrite !Nat.add_0_r, firstn_skipn. reflexivity.
  - unfold put at 1, bits_set. destruct (Nat.ltb_spec off (length l)); [|lia]. cbn [obind].
    rewrite IH by (rewrite upd_length; lia). rewrite <- splice_cons by lia. f_equal. f_equal. lia.
Qed.
Lemma put_panic src : forall l off, src <> [] -> length l < off + length src -> ofold put src (l, off) = Panic.
Proof.
  induction src as [|b t IH]; intros l off Hn H; cbn [ofold length] in *; [congruence|].
  unfold put at 1, bits_set. destruct (Nat.ltb_spec off (length l)); [|reflexivity]. cbn [obind].
  apply IH; [destruct t; cbn [length] in H; [lia|discriminate]|]. rewrite upd_length. lia.
Qed.
Lemma encoded_fold base src : forall l i, ofold (fun '(l, i) bit => let! l' := bits_set l (base + i) bit in Ok (l', S i)) src (l, i)
  = omap (fun st => (fst st, snd st - base)) (ofold put src (l, base + i)).
Proof.
  induction src as [|b t IH]; intros l i; cbn [ofold].
  - unfold omap. cbn [obind fst snd]. f_equal. f_equal. lia.
  - unfold put at 1. destruct (bits_set l (base + i) b) as [l'| |]; cbn [obind omap]; try reflexivity.
    rewrite IH. replace (base + S i) with (S (base + i)) by lia. reflexivity.
Qed.

(* ---- decoding ---- *)
Lemma every_other_spec a b n : (b - a + 1) / 2 = n -> every_other a b = map (fun k => a + 2 * k) (seq 0 n).
Proof. intros <-. reflexivity. Qed.
Lemma read_u8_spec m i c : i < fm_len m -> nth_error (f_clock m) i = Some c -> i + (if c then 1 else 0) + 15 <= fm_len m ->
  fm_read_decoded_u8 m i = Ok (Some (bits_val (map (fun k => nth (i + (if c then 1 else 0) + 2 * k) (f_bits m) false) (seq 0 8)))).
Proof.
  intros Hi Hc Hl. unfold fm_read_decoded_u8.
  assert (Hcl : i < length (f_clock m)) by (apply nth_error_Some; congruence).
  destruct (Nat.leb_spec (fm_len m) i); [lia|]. destruct (Nat.leb_spec (length (f_clock m)) i); [lia|]. cbn [orb].
  unfold oindex at 1. rewrite Hc. cbn [obind]. set (d := if c then 1 else 0) in *.
  assert (Hd : d = 0 \/ d = 1) by (subst d; destruct c; auto).
  rewrite (every_other_spec _ _ 8).
  - rewrite gather_spec.
    + cbn [obind]. rewrite map_map. reflexivity.
    + intros j Hj. apply in_map_iff in Hj as (k & <- & Hk). apply in_seq in Hk. unfold fm_len in *. lia.
    + rewrite map_length. apply seq_length.
  - destruct (Nat.min_spec (i + 16) (fm_len m)) as [[_ ->]|[_ E]]; [|rewrite E].
    + destruct Hd as [-> | ->]; [replace (i + 16 - (i + 0) + 1) with 17 by lia|replace (i + 16 - (i + 1) + 1) with 16 by lia]; reflexivity.
    + assert (A : fm_len m - (i + d) + 1 = 16 \/ fm_len m - (i + d) + 1 = 17) by lia.
      destruct A as [-> | ->]; reflexivity.
Qed.

Lemma map_seq_nth (l : list bool) p n : p + n <= length l -> map (fun k => nth (p + k) l false) (seq 0 n) = slice l p n.
Proof.
  intros H. apply list_eq_nth_error. intros j. unfold slice. rewrite nth_error_firstn, nth_error_skipn.
  destruct (Nat.ltb_spec j n).
  - rewrite (map_nth_error _ j (seq 0 n) (d := j)).
    + symmetry. rewrite (nth_error_nth' _ false) by lia. reflexivity.
    + rewrite (nth_error_nth' _ 0) by (rewrite seq_length; lia). rewrite seq_nth by lia. reflexivity.
  - apply nth_error_None. rewrite map_length, seq_length. lia.
Qed.

(* ---- markers ---- *)
Definition fm_pat (mk : MarkerEncoding) : MarkerEncoding :=
  mkMarker (N.lor FM_CLOCK_PATTERN (N.land (N.land (me_bits mk) FM_DATA_MASK) (me_mask mk)))
           (N.lor FM_CLOCK_MASK (N.land FM_DATA_MASK (me_mask mk))) 64.
Lemma disjoint_match a b cm dm cp dp : N.land cm dm = 0%N -> N.land cp cm = cp -> N.land dp dm = dp -> N.land a cm = cp /\ N.land b dm = dp ->
  a = b -> N.land a (N.lor cm dm) = N.lor cp dp.
Proof. intros _ _ _ [H1 H2] ->. rewrite N.land_lor_distr_r. congruence. Qed.
Lemma match_disjoint a cm dm cp dp : N.land cm dm = 0%N -> N.land cp cm = cp -> N.land dp dm = dp ->
  N.land a (N.lor cm dm) = N.lor cp dp -> N.land a cm = cp /\ N.land a dm = dp.
Proof.
  intros H0 H1 H2 H. split; apply N.bits_inj; intros n;
    apply (f_equal (fun x => N.testbit x n)) in H; apply (f_equal (fun x => N.testbit x n)) in H0;
    apply (f_equal (fun x => N.testbit x n)) in H1; apply (f_equal (fun x => N.testbit x n)) in H2;
    rewrite ?N.land_spec, ?N.lor_spec, ?N.bits_0 in *;
    destruct (N.testbit a n), (N.testbit cm n), (N.testbit dm n), (N.testbit cp n), (N.testbit dp n); cbn in *; congruence.
Qed.
Lemma fm_match reg mk :
  ((N.land reg FM_CLOCK_MASK =? FM_CLOCK_PATTERN)%N &&
   (N.land (N.land reg FM_DATA_MASK) (me_mask mk) =? N.land (N.land (me_bits mk) FM_DATA_MASK) (me_mask mk))%N)
  = (N.land reg (me_mask (fm_pat mk)) =? me_bits (fm_pat mk))%N.
Proof.
  apply eq_true_iff_eq. rewrite andb_true_iff, !N.eqb_eq. cbn [fm_pat me_mask me_bits]. rewrite <- (N.land_assoc reg).
  split.
  - intros H. rewrite N.land_lor_distr_r. f_equal; apply H.
  - apply match_disjoint.
    + rewrite N.land_assoc. change (N.land FM_CLOCK_MASK FM_DATA_MASK) with 0%N. apply N.land_0_l.
    + reflexivity.
    + rewrite <- !N.land_assoc. f_equal. rewrite (N.land_comm (me_mask mk)), <- N.land_assoc, N.land_diag.
      rewrite N.land_assoc, N.land_diag. reflexivity.
Qed.
Lemma fm_loop l mk fuel : forall bi reg ct, bi + fuel <= length l ->
  fm_find_loop l mk fuel bi reg ct = find_marker_loop (ring_from l) (fm_pat mk) fuel bi reg ct.
Proof.
  induction fuel as [|f IH]; intros bi reg ct H; [reflexivity|]. cbn [fm_find_loop find_marker_loop].
  assert (E : ring_get (ring_from l) bi = oindex l bi).
  { unfold ring_get, ring_from. cbn [r_wrap r_bits]. destruct (Nat.ltb_spec bi (length l)); [reflexivity|lia]. }
  rewrite E. destruct (oindex l bi) as [b| |]; cbn [obind]; try reflexivity.
  rewrite <- andb_assoc, fm_match. rewrite IH by lia. reflexivity.
Qed.
Lemma testbit_lor_mask mk i : N.testbit (me_mask (fm_pat mk)) i = N.testbit FM_CLOCK_MASK i || (N.testbit FM_DATA_MASK i && N.testbit (me_mask mk) i).
Proof. cbn [fm_pat me_mask]. rewrite N.lor_spec, N.land_spec. reflexivity. Qed.
Lemma testbit_lor_bits mk i : N.testbit (me_bits (fm_pat mk)) i = N.testbit FM_CLOCK_PATTERN i || (N.testbit (me_bits mk) i && N.testbit FM_DATA_MASK i && N.testbit (me_mask mk) i).
Proof. cbn [fm_pat me_bits]. rewrite N.lor_spec, !N.land_spec. reflexivity. Qed.
Lemma clock_facts k : k < 32 -> N.testbit FM_CLOCK_MASK (N.of_nat (63 - 2 * k)) = true /\ N.testbit FM_DATA_MASK (N.of_nat (63 - 2 * k)) = false /\
  N.testbit FM_CLOCK_PATTERN (N.of_nat (63 - 2 * k)) = nth k (bits_of [0xFF; 0xFF; 0xFF; 0xC7]%N) false.
Proof. intros H. do 32 (destruct k as [|k]; [vm_compute; auto|]). lia. Qed.
Lemma data_facts k : k < 32 -> N.testbit FM_CLOCK_MASK (N.of_nat (63 - (2 * k + 1))) = false /\
  N.testbit FM_DATA_MASK (N.of_nat (63 - (2 * k + 1))) = (24 <=? k) /\ N.testbit FM_CLOCK_PATTERN (N.of_nat (63 - (2 * k + 1))) = false.
Proof. intros H. do 32 (destruct k as [|k]; [vm_compute; auto|]). lia. Qed.
Lemma clocks_at_nth l p n k : k < n -> nth k (clocks_at l p n) false = nth (p + 2 * k) l false.
Proof.
  intros H. unfold clocks_at. rewrite (nth_indep _ false (nth (p + 2 * 0) l false)) by (rewrite map_length, seq_length; exact H).
  rewrite (map_nth (fun k => nth (p + 2 * k) l false)). rewrite seq_nth by exact H. reflexivity.
Qed.
Lemma pat_small mk : (me_bits (fm_pat mk) < 2 ^ 64)%N.
Proof.
  cbn [fm_pat me_bits]. destruct (N.eq_dec (N.lor FM_CLOCK_PATTERN (N.land (N.land (me_bits mk) FM_DATA_MASK) (me_mask mk))) 0) as [->|H]; [reflexivity|].
  apply N.log2_lt_pow2; [lia|]. rewrite N.log2_lor. apply N.max_lub_lt; [reflexivity|].
  eapply N.le_lt_trans; [apply N.log2_land|]. eapply N.le_lt_trans; [apply N.le_min_l|].
  eapply N.le_lt_trans; [apply N.log2_land|]. eapply N.le_lt_trans; [apply N.le_min_r|]. reflexivity.
Qed.
Lemma occurs_mark l mk p : occurs l (me_mask (fm_pat mk)) (me_bits (fm_pat mk)) p <-> fm_mark l (me_mask mk) (me_bits mk) p.
Proof.
  split.
  - intros H. pose proof H as [Hl _]. split; [exact Hl|]. split.
    + apply nth_ext with (d := false) (d' := false); [unfold clocks_at; rewrite map_length, seq_length; reflexivity|].
      unfold clocks_at at 1. rewrite map_length, seq_length. intros k Hk. rewrite clocks_at_nth by exact Hk.
      destruct (clock_facts k Hk) as (E1 & E2 & E3).
      rewrite (occurs_bits _ _ _ _ (2 * k) H); [|lia|rewrite testbit_lor_mask, E1; reflexivity].
      rewrite testbit_lor_bits, E2, E3. rewrite andb_false_r. apply orb_false_r.
    + intros k Hk Hm. destruct (data_facts (24 + k) ltac:(lia)) as (E1 & E2 & E3).
      replace (63 - (2 * (24 + k) + 1)) with (14 - 2 * k) in * by lia.
      destruct (Nat.leb_spec 24 (24 + k)); [|lia].
      replace (p + 49 + 2 * k) with (p + (2 * (24 + k) + 1)) by lia.
      assert (E : 63 - (2 * (24 + k) + 1) = 14 - 2 * k) by lia.
      rewrite (occurs_bits _ _ _ _ (2 * (24 + k) + 1) H); [|lia|rewrite E, testbit_lor_mask, E2, Hm; apply orb_true_r].
      rewrite E, testbit_lor_bits, E3, E2, Hm, !andb_true_r. reflexivity.
  - intros (Hl & Hc & Hd). apply occurs_intro; [exact Hl|apply pat_small|].
    intros i Hi. rewrite testbit_lor_mask, testbit_lor_bits.
    assert (A : exists k, k < 32 /\ (i = 2 * k \/ i = 2 * k + 1)).
    { exists (i / 2). pose proof (Nat.div_mod i 2 ltac:(lia)). pose proof (Nat.mod_upper_bound i 2 ltac:(lia)). lia. }
    destruct A as (k & Hk & [-> | ->]).
    + destruct (clock_facts k Hk) as (E1 & E2 & E3). rewrite E1, E2, E3. cbn [orb andb]. rewrite andb_true_r, andb_false_r. cbn [andb]. rewrite orb_false_r.
      rewrite <- Hc, clocks_at_nth by exact Hk. reflexivity.
    + destruct (data_facts k Hk) as (E1 & E2 & E3). rewrite E1, E2, E3. cbn [orb].
      destruct (Nat.leb_spec 24 k) as [L|L]; cbn [andb]; [|rewrite andb_false_r, andb_false_r; reflexivity].
      rewrite andb_true_r. destruct (N.testbit (me_mask mk) (N.of_nat (63 - (2 * k + 1)))) eqn:Em; [|rewrite !andb_false_r; reflexivity].
      rewrite !andb_true_r. specialize (Hd (k - 24) ltac:(lia)).
      replace (14 - 2 * (k - 24)) with (63 - (2 * k + 1)) in Hd by lia. rewrite <- (Hd Em). f_equal. lia.
Qed.
