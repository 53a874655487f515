(* Ipf_proofs.v - reading the chunks and records of an IPF file. *)
From Verif Require Import Base Base_lemmas Chs_model Mfm_spec Mfm_proofs Crc_spec Crc_proofs Crc32_spec Crc32_model Crc32_proofs.
From Verif Require Import Codec_lemmas Total_spec Total_proofs Bs_general_proofs Amiga_spec Amiga_proofs Amiga2_proofs Amiga3_proofs Amiga4_proofs Amiga5_proofs.
From Verif Require Import BitRing_model Mfm_model Types_model System34_model BitStream_model DiskImage_model Amiga_model Ipf_model Ipf_spec.
From Verif Require Pce_model Pce_proofs Raw_model.
From Verif Require Import BitRing_proofs.

(* ---- the remainder is unique ---- *)
Lemma clmul_lxor_l a : forall b g, N.lxor (clmul a g) (clmul b g) = clmul (N.lxor a b) g.
Proof.
  induction a as [|a IH|a IH] using N.binary_ind; intros b g.
  - cbn [clmul]. rewrite !N.lxor_0_l. reflexivity.
  - destruct b as [|b|b] using N.binary_ind.
    + cbn [clmul]. rewrite !N.lxor_0_r. reflexivity.
    + rewrite !clmul_double, <- !double_lxor, clmul_double, IH. reflexivity.
    + rewrite clmul_double, clmul_succ_double.
      replace (N.lxor (N.double a) (N.succ_double b)) with (N.succ_double (N.lxor a b)) by (destruct a, b; reflexivity).
      rewrite clmul_succ_double, <- IH, double_lxor. rewrite <- !N.lxor_assoc. f_equal. apply N.lxor_comm.
  - destruct b as [|b|b] using N.binary_ind.
    + cbn [clmul]. rewrite !N.lxor_0_r. reflexivity.
    + rewrite clmul_double, clmul_succ_double.
      replace (N.lxor (N.succ_double a) (N.double b)) with (N.succ_double (N.lxor a b)) by (destruct a, b; reflexivity).
      rewrite clmul_succ_double, <- IH, double_lxor. rewrite <- !N.lxor_assoc. reflexivity.
    + rewrite !clmul_succ_double.
      replace (N.lxor (N.succ_double a) (N.succ_double b)) with (N.double (N.lxor a b)) by (destruct a as [|p], b as [|q]; try reflexivity; cbn; destruct (Pos.lxor p q); reflexivity).
      rewrite clmul_double, <- IH, double_lxor. rewrite <- !N.lxor_assoc. f_equal.
      rewrite (N.lxor_comm g), N.lxor_assoc, N.lxor_nilpotent, N.lxor_0_r. reflexivity.
Qed.
Lemma log2_lt_lxor a b : (N.log2 a < N.log2 b)%N -> N.log2 (N.lxor a b) = N.log2 b.
Proof.
  intros H.
  assert (Hb : (0 < b)%N) by (destruct b; [cbn in H; lia|lia]).
  apply N.log2_unique; [lia|].
  assert (T : N.testbit (N.lxor a b) (N.log2 b) = true).
  { rewrite N.lxor_spec, (N.bit_log2 b) by lia. rewrite N.bits_above_log2 by exact H. reflexivity. }
  split.
  - destruct (N.le_gt_cases (2 ^ N.log2 b) (N.lxor a b)) as [L|L]; [exact L|exfalso].
    rewrite (N.bits_above_log2 (N.lxor a b)) in T; [discriminate|].
    destruct (N.eq_dec (N.lxor a b) 0) as [Z|Z]; [rewrite Z in *; rewrite N.bits_0 in T; discriminate|].
    apply N.log2_lt_pow2; lia.
  - destruct (N.eq_dec (N.lxor a b) 0) as [Z|Z]; [rewrite Z; apply N.neq_0_lt_0, N.pow_nonzero; discriminate|].
    apply N.log2_lt_pow2; [lia|]. apply N.lt_succ_r. etransitivity; [apply N.log2_lxor|]. lia.
Qed.
Lemma clmul_log2 g : (0 < g)%N -> forall q, (0 < q)%N -> N.log2 (clmul q g) = (N.log2 q + N.log2 g)%N /\ (0 < clmul q g)%N.
Proof.
  intros Hg. induction q as [|q IH|q IH] using N.binary_ind; intros Hq; [lia| |].
  - assert (H : (0 < q)%N) by (destruct q; [cbn in Hq; lia|lia]).
    destruct (IH H) as [L P']. rewrite clmul_double, !N.double_spec, !N.log2_double by lia. lia.
  - destruct (N.eq_dec q 0) as [->|Z].
    + cbn. lia.
    + destruct (IH ltac:(lia)) as [L P']. rewrite clmul_succ_double.
      assert (E : N.log2 (N.double (clmul q g)) = (N.log2 (N.succ_double q) + N.log2 g)%N).
      { rewrite N.double_spec, N.log2_double, N.succ_double_spec, N.log2_succ_double by lia. lia. }
      assert (M : (N.log2 g < N.log2 (N.double (clmul q g)))%N).
      { rewrite E, N.succ_double_spec, N.log2_succ_double by lia. lia. }
      split; [rewrite log2_lt_lxor by exact M; exact E|].
      apply N.neq_0_lt_0. intros Z0. apply N.lxor_eq in Z0. rewrite <- Z0 in M. lia.
Qed.
Lemma rem_unique w g m a b : N.log2 g = w -> (0 < g)%N -> is_rem w g m a -> is_rem w g m b -> a = b.
Proof.
  intros Hw Hg [La [p Ep]] [Lb [q Eq]].
  assert (E : clmul (N.lxor p q) g = N.lxor a b).
  { rewrite <- clmul_lxor_l. apply N.lxor_eq. rewrite Ep in Eq.
    apply N.bits_inj. intros i. assert (T := f_equal (fun z => N.testbit z i) Eq). cbn beta in T.
    rewrite !N.lxor_spec in T. rewrite !N.lxor_spec, N.bits_0.
    destruct (N.testbit (clmul p g) i), (N.testbit (clmul q g) i), (N.testbit a i), (N.testbit b i); cbn in *; congruence. }
  destruct (N.eq_dec (N.lxor p q) 0) as [Z|Z].
  - rewrite Z in E. cbn [clmul] in E. symmetry in E. apply N.lxor_eq in E. exact E.
  - destruct (clmul_log2 g Hg (N.lxor p q) ltac:(lia)) as [L P'].
    rewrite E in L, P'. exfalso.
    assert (H : (N.log2 (N.lxor a b) < w)%N).
    { eapply N.le_lt_trans; [apply N.log2_lxor|]. apply N.max_lub_lt.
      - destruct (N.eq_dec a 0) as [->|Za]; [|apply N.log2_lt_pow2; lia].
        destruct (N.eq_dec b 0) as [->|Zb]; [exfalso; clear - P'; cbn in P'; lia|].
        eapply N.le_lt_trans; [|apply (N.log2_lt_pow2 b); [lia|exact Lb]]. cbn. lia.
      - destruct (N.eq_dec b 0) as [->|Zb]; [|apply N.log2_lt_pow2; lia].
        destruct (N.eq_dec a 0) as [->|Za]; [exfalso; clear - P'; cbn in P'; lia|].
        eapply N.le_lt_trans; [|apply (N.log2_lt_pow2 a); [lia|exact La]]. cbn. lia. }
    lia.
Qed.
Lemma crc32_hash l c : bytes_ok l = true -> crc32_is l c -> not32 (fold_left ipf_byte l 0xFFFFFFFF%N) = c.
Proof.
  intros H [Hc R].
  destruct (ipf_fold l 0xFFFFFFFF H ltac:(reflexivity)) as [Hlt Hm].
  assert (R2 := crcb_rem 32 0x04C11DB7 HW32 HQ32 0xFFFFFFFF (bits_lsb l) ltac:(reflexivity)).
  rewrite bits_lsb_length in R2.
  assert (E : mirror32 0xFFFFFFFF = 0xFFFFFFFF%N) by (vm_compute; reflexivity). rewrite E in Hm.
  rewrite <- Hm in R2.
  assert (U := rem_unique 32 0x104C11DB7 _ _ _ ltac:(reflexivity) ltac:(reflexivity) R R2).
  apply mirror_inj in U; [|apply not32_lt; exact Hc|exact Hlt].
  rewrite <- U. apply not32_not32.
Qed.

(* ---- big-endian numbers ---- *)
Lemma be_length w n : length (be w n) = w.
Proof. unfold be. rewrite map_length, seq_length. reflexivity. Qed.
Lemma be_bytes w n : bytes_ok (be w n) = true.
Proof.
  apply bytes_ok_Forall. unfold be. apply Forall_forall. intros x Hx. apply in_map_iff in Hx as (k & <- & _).
  apply N.mod_lt. discriminate.
Qed.
Lemma be_snoc w n : be (S w) n = be w (n / 256)%N ++ [(n mod 256)%N].
Proof.
  unfold be. rewrite seq_S, map_app. cbn [map Nat.add]. f_equal.
  - apply map_ext_in. intros k Hk. apply in_seq in Hk. rewrite N.div_div by (try discriminate; apply N.pow_nonzero; discriminate).
    f_equal. f_equal. rewrite <- N.pow_succ_r'. f_equal. lia.
  - replace (S w - 1 - w) with 0 by lia. change (N.of_nat 0) with 0%N. rewrite N.pow_0_r, N.div_1_r. reflexivity.
Qed.
Lemma be4 n : be 4 n = Pce_model.be32 n.
Proof.
  rewrite !be_snoc. unfold Pce_model.be32. change (be 0 (n / 256 / 256 / 256 / 256)) with (@nil N). cbn [app].
  rewrite !N.div_div by discriminate. reflexivity.
Qed.
Lemma shift_or x b : (b < 256)%N -> N.lor (N.shiftl x 8) b = (x * 256 + b)%N.
Proof.
  intros H. rewrite N.shiftl_mul_pow2. change (2 ^ 8)%N with 256%N. rewrite <- N.lxor_lor.
  - symmetry. apply N.add_nocarry_lxor. change 256%N with (2 ^ 8)%N. rewrite <- N.shiftl_mul_pow2. apply N.bits_inj. intros i.
    rewrite N.land_spec, N.bits_0. destruct (N.lt_ge_cases i 8) as [L|L].
    + rewrite N.shiftl_spec_low by exact L. reflexivity.
    + assert (T : N.testbit b i = false).
      { destruct (N.eq_dec b 0) as [->|Z]; [apply N.bits_0|]. apply N.bits_above_log2. apply N.lt_le_trans with 8%N; [|exact L].
        apply N.log2_lt_pow2; [lia|]. exact H. }
      rewrite T. apply Bool.andb_false_r.
  - change 256%N with (2 ^ 8)%N. rewrite <- N.shiftl_mul_pow2. apply N.bits_inj. intros i.
    rewrite N.land_spec, N.bits_0. destruct (N.lt_ge_cases i 8) as [L|L].
    + rewrite N.shiftl_spec_low by exact L. reflexivity.
    + assert (T : N.testbit b i = false).
      { destruct (N.eq_dec b 0) as [->|Z]; [apply N.bits_0|]. apply N.bits_above_log2. apply N.lt_le_trans with 8%N; [|exact L].
        apply N.log2_lt_pow2; [lia|]. exact H. }
      rewrite T. apply Bool.andb_false_r.
Qed.
Lemma sample_be w : forall n, (n < 256 ^ N.of_nat w)%N -> sample_size (be w n) = n.
Proof.
  induction w as [|w IH]; intros n H.
  - change (256 ^ N.of_nat 0)%N with 1%N in H. change (be 0 n) with (@nil N). cbn. lia.
  - rewrite be_snoc. unfold sample_size in *. rewrite fold_left_app. cbn [fold_left].
    rewrite shift_or by (apply N.mod_lt; discriminate). rewrite IH.
    + rewrite N.mul_comm. symmetry. apply N.div_mod. discriminate.
    + apply N.div_lt_upper_bound; [discriminate|]. rewrite <- N.pow_succ_r', <- Nat2N.inj_succ. exact H.
Qed.
Lemma take_app n a b : length a = n -> take n (a ++ b) = Ok (a, b).
Proof. apply Pce_proofs.read_exact_app. Qed.
Lemma word_app x r : (x < 2 ^ 32)%N -> word (be 4 x ++ r) = Ok (x, r).
Proof. intros H. rewrite be4. apply Pce_proofs.read_be32_app. exact H. Qed.
Lemma be_words_cons x l : be_words (x :: l) = be 4 x ++ be_words l.
Proof. reflexivity. Qed.
Lemma be_words_length l : length (be_words l) = 4 * length l.
Proof. induction l as [|x l IH]; [reflexivity|]. rewrite be_words_cons, app_length, be_length, IH. cbn [length]. lia. Qed.
Lemma be_words_bytes l : bytes_ok (be_words l) = true.
Proof. induction l as [|x l IH]; [reflexivity|]. rewrite be_words_cons, bytes_ok_app, be_bytes, IH. reflexivity. Qed.
Lemma words_app n : forall l r, words_ok n l -> words n (be_words l ++ r) = Ok (l, r).
Proof.
  induction n as [|n IH]; intros l r [Hl Hf]; destruct l as [|x l]; try discriminate Hl; [reflexivity|].
  cbn [words]. rewrite be_words_cons, <- app_assoc, word_app by exact (Forall_inv Hf). cbn [obind].
  rewrite IH by (split; [injection Hl as Hl; exact Hl|exact (Forall_inv_tail Hf)]). reflexivity.
Qed.

(* ---- chunks ---- *)
Lemma is_chunk_length id d x : length id = 4 -> is_chunk id d x -> length x = 12 + length d.
Proof. intros H (_ & _ & c & _ & ->). unfold chunk. rewrite !app_length, !be_length. lia. Qed.
Lemma be4_0 : be 4 0 = [0; 0; 0; 0]%N.
Proof. rewrite be4. vm_compute. reflexivity. Qed.
Lemma chunk_hash id d n : ipf_chunk_crc id n d = not32 (fold_left ipf_byte (id ++ be 4 n ++ be 4 0 ++ d) 0xFFFFFFFF%N).
Proof.
  unfold ipf_chunk_crc, ipf_hasher_finalize, ipf_hasher_new, ipf_hasher_update. rewrite be4_0, !fold_left_app, (be4 n). reflexivity.
Qed.
Lemma read_chunk_ok id d x file pos rest : length id = 4 -> bytes_ok id = true -> is_chunk id d x -> skipn pos file = x ++ rest ->
  ipf_read_chunk file pos = Ok (mkIc id d, pos + length x).
Proof.
  intros Hid Bid Hx Hs. rewrite (is_chunk_length id d x Hid Hx). destruct Hx as (Bd & Hl & c & Hc & ->).
  unfold ipf_read_chunk. rewrite Hs. unfold chunk. rewrite <- !app_assoc.
  rewrite (take_app 4 id) by exact Hid. cbn [obind].
  assert (L32 : (12 + N.of_nat (length d) < 2 ^ 32)%N) by (eapply N.le_lt_trans; [exact Hl|reflexivity]).
  rewrite word_app by exact L32. cbn [obind]. rewrite word_app by exact (proj1 Hc). cbn [obind].
  replace (12 + N.of_nat (length d) - 12)%N with (N.of_nat (length d)) by lia.
  rewrite app_length. replace (N.of_nat (length d + length rest) <? N.of_nat (length d))%N with false by (symmetry; apply N.ltb_ge; lia).
  rewrite Nat2N.id, (firstn_app_exact d rest) by reflexivity.
  replace (Pce_model.MAXIMUM_CHUNK_SIZE <? 12 + N.of_nat (length d))%N with false by (symmetry; apply N.ltb_ge; exact Hl).
  rewrite chunk_hash. unfold chunk in Hc. rewrite (crc32_hash _ c); [|rewrite !bytes_ok_app, Bid, Bd, !be_bytes; reflexivity|exact Hc].
  rewrite N.eqb_refl. cbn [negb]. rewrite <- Nat.add_assoc. reflexivity.
Qed.

(* ---- stream elements ---- *)
Lemma kind_land k w : N.land (kind_code k + 32 * w) 7 = kind_code k.
Proof.
  change 7%N with (N.ones 3). rewrite N.land_ones. change (2 ^ 3)%N with 8%N.
  replace (32 * w)%N with (4 * w * 8)%N by lia. rewrite N.mod_add by discriminate. destruct k; reflexivity.
Qed.
Lemma kind_shift k w : N.shiftr (kind_code k + 32 * w) 5 = w.
Proof.
  rewrite N.shiftr_div_pow2. change (2 ^ 5)%N with 32%N. rewrite N.mul_comm, N.div_add by discriminate. destruct k; reflexivity.
Qed.
Lemma data_element_ok e r : element_ok e ->
  data_element false (element_bytes e ++ r) = Ok (kind_code (el_kind e), N.of_nat (el_width e), Some (el_bytes e), r).
Proof.
  intros (Hw & _ & Hn & _). unfold data_element, element_bytes.
  set (h := (kind_code (el_kind e) + 32 * N.of_nat (el_width e))%N).
  change ((h :: be (el_width e) (N.of_nat (length (el_bytes e))) ++ el_bytes e) ++ r)
    with ([h] ++ ((be (el_width e) (N.of_nat (length (el_bytes e))) ++ el_bytes e) ++ r)).
  rewrite (take_app 1 [h]) by reflexivity. cbn [obind]. change (oindex [h] 0) with (@Ok N h). cbn [obind].
  unfold h. rewrite kind_land, kind_shift, Nat2N.id, <- app_assoc, take_app by apply be_length. cbn [obind].
  rewrite sample_be by exact Hn.
  replace (kind_code (el_kind e) =? 5)%N with false by (destruct (el_kind e); reflexivity).
  rewrite app_length. replace (N.of_nat (length (el_bytes e) + length r) <? N.of_nat (length (el_bytes e)))%N with false by (symmetry; apply N.ltb_ge; lia).
  rewrite Nat2N.id, (firstn_app_exact (el_bytes e) r) by reflexivity. rewrite (skipn_app_exact (el_bytes e) r) by reflexivity. reflexivity.
Qed.
Lemma element_end r : data_element false (0%N :: r) = Ok (0%N, 0%N, Some [], r).
Proof.
  unfold data_element. change (0%N :: r) with ([0%N] ++ r). rewrite (take_app 1 [0%N]) by reflexivity. cbn [obind].
  change (oindex [0%N] 0) with (@Ok N 0%N). cbn [obind]. change (N.shiftr 0 5) with 0%N. change (N.land 0 7) with 0%N. change (N.to_nat 0) with 0.
  assert (T : take 0 r = Ok ([], r)) by reflexivity. rewrite T. cbn [obind]. change (sample_size []) with 0%N. change (0 =? 5)%N with false.
  replace (N.of_nat (length r) <? 0)%N with false by (symmetry; apply N.ltb_ge; lia). reflexivity.
Qed.

(* a new track whose cells are written over: the clock map keeps its only phase *)
Definition blank (m : Mfm) : Prop := ready m /\ (forall i, in_phase m i 1 0) /\ r_wrapv (m_clock m) = Some false /\
  (forall i, weak_at m i = false).
Lemma blank_with m l : blank m -> length l = mfm_len m -> blank (with_bits m (ring_with (m_bits m) l)) /\
  mfm_data (with_bits m (ring_with (m_bits m) l)) = l.
Proof.
  intros ((((A & B & C & D) & W) & L) & Ph & Wv & Wk) E. split; [|reflexivity].
  split; [|split; [|split; [exact Wv|exact Wk]]].
  - split; [split; [split; [apply plain_with; [exact A|exact E]|split; [exact B|split; [exact C|exact D]]]|exact W]|].
    unfold mfm_len, ring_len in *. cbn [with_bits ring_with m_bits m_clock r_bits]. rewrite L. symmetry. exact E.
  - intros i. exact (Ph i).
Qed.
Lemma lay_blank e m p : blank m -> element_ok e -> exists m',
  (if (kind_code (el_kind e) =? 1)%N then let! m := write_raw_buf m (el_bytes e) p in Ok (m, length (el_bytes e) / 2)
   else if (kind_code (el_kind e) =? 2)%N || (kind_code (el_kind e) =? 3)%N then let! (m, _) := write_encoded_buf m (el_bytes e) p in Ok (m, length (el_bytes e))
   else Ok (m, length (el_bytes e))) = Ok (m', (snd (lay_element (mfm_data m, p) e) - p) / 16) /\
  p + (snd (lay_element (mfm_data m, p) e) - p) / 16 * 16 = snd (lay_element (mfm_data m, p) e) /\
  blank m' /\ mfm_data m' = fst (lay_element (mfm_data m, p) e).
Proof.
  intros H (_ & He & _).
  assert (Hp : plain (m_bits m)) by (destruct H as (((H & _) & _) & _); destruct H as (H & _); exact H).
  assert (Wf : mfm_wf m) by (destruct H as (((H & _) & _) & _); exact H).
  assert (Raw : forall q x, blank (with_bits m (ring_with (m_bits m) (circ_write (mfm_data m) q x))) /\
            mfm_data (with_bits m (ring_with (m_bits m) (circ_write (mfm_data m) q x))) = circ_write (mfm_data m) q x).
  { intros q x. apply blank_with; [exact H|]. rewrite circ_write_length. reflexivity. }
  assert (Enc : exists m', write_encoded_buf m (el_bytes e) p = Ok (m', 2 * length (el_bytes e)) /\ blank m' /\
            mfm_data m' = circ_write (mfm_data m) p (mfm false (bits_of (el_bytes e)))).
  { rewrite (write_encoded_buf_spec m (el_bytes e) p 0 Wf) by (destruct H as (_ & H & _); apply H). rewrite Nat.add_0_r.
    eexists. split; [reflexivity|]. apply Raw. }
  assert (Div : forall n, (p + 16 * n - p) / 16 = n) by (intros n; replace (p + 16 * n - p) with (n * 16) by lia; apply Nat.div_mul; discriminate).
  unfold lay_element. destruct (el_kind e) eqn:K; cbn [kind_code fst snd].
  - change (1 =? 1)%N with true. cbv iota. rewrite write_raw_buf_spec by exact Hp. cbn [obind].
    assert (E2 : 8 * length (el_bytes e) = 16 * (length (el_bytes e) / 2)).
    { pose proof (Nat.div_mod (length (el_bytes e)) 2 ltac:(discriminate)) as D. specialize (He eq_refl). clear - D He. lia. }
    rewrite E2, Div. eexists. split; [reflexivity|]. split; [lia|]. apply Raw.
  - change (2 =? 1)%N with false. change ((2 =? 2)%N || (2 =? 3)%N) with true. cbv iota. destruct Enc as (m' & -> & B & D). cbn [obind].
    rewrite Div. exists m'. split; [reflexivity|]. split; [lia|]. split; assumption.
  - change (3 =? 1)%N with false. change ((3 =? 2)%N || (3 =? 3)%N) with true. cbv iota. destruct Enc as (m' & -> & B & D). cbn [obind].
    rewrite Div. exists m'. split; [reflexivity|]. split; [lia|]. split; assumption.
Qed.
Lemma elements_ok : forall els fuel m p r, blank m -> Forall element_ok els -> length els < fuel ->
  exists m', ipf_elements fuel false false m p (stream els ++ r) = Ok (m', snd (fold_left lay_element els (mfm_data m, p))) /\
    blank m' /\ mfm_data m' = fst (fold_left lay_element els (mfm_data m, p)).
Proof.
  induction els as [|e els IH]; intros fuel m p r B F L; (destruct fuel as [|f]; [cbn in L; lia|]); cbn [ipf_elements].
  - change (stream [] ++ r) with (0%N :: r). rewrite element_end. cbn [obind]. change ((0 =? 0)%N && (0 =? 0)%N) with true. cbv iota.
    cbn [fold_left fst snd]. exists m. auto.
  - replace (stream (e :: els) ++ r) with (element_bytes e ++ (stream els ++ r)) by (unfold stream; cbn [flat_map]; rewrite <- !app_assoc; reflexivity).
    rewrite data_element_ok by exact (Forall_inv F). cbn [obind].
    assert (Z : (kind_code (el_kind e) =? 0)%N = false) by (destruct (el_kind e); reflexivity). rewrite Z. cbn [andb].
    destruct (lay_blank e m p B (Forall_inv F)) as (m1 & E1 & P1 & B1 & D1). rewrite E1. cbn [obind].
    unfold MFM_BYTE_LEN. rewrite P1. cbn [fold_left].
    destruct (IH f m1 (snd (lay_element (mfm_data m, p) e)) r B1 (Forall_inv_tail F)) as (m2 & E2 & B2 & D2); [cbn [length] in L; lia|].
    rewrite D1 in E2, D2. rewrite <- surjective_pairing in E2, D2. exists m2. auto.
Qed.
Lemma stream_length els : length els < length (stream els).
Proof.
  unfold stream. rewrite app_length. cbn [length]. induction els as [|e els IH]; [cbn; lia|].
  cbn [flat_map length]. rewrite app_length. unfold element_bytes at 1. cbn [length]. lia.
Qed.

(* ---- blocks ---- *)
Definition blk_of (enc : N) (b : iblock) : Block :=
  mkBlk enc (wd 1 (ib_words b)) (wd 2 (ib_words b)) (wd 5 (ib_words b)) (wd 7 (ib_words b)).
Lemma blocks_ok enc : (enc = 1%N \/ enc = 2%N) -> forall bs r, Forall (fun b => words_ok 8 (ib_words b)) bs ->
  ipf_blocks enc (length bs) (flat_map (fun b => be_words (ib_words b)) bs ++ r) = Ok (map (blk_of enc) bs, r).
Proof.
  intros He. induction bs as [|b bs IH]; intros r F; [reflexivity|]. cbn [length ipf_blocks flat_map map]. rewrite <- app_assoc.
  unfold ipf_block at 1. replace ((enc =? 1)%N || (enc =? 2)%N) with true by (destruct He as [-> | ->]; reflexivity).
  rewrite words_app by exact (Forall_inv F). cbn [obind]. rewrite IH by exact (Forall_inv_tail F). reflexivity.
Qed.
(* ---- gap streams ---- *)
Lemma gap_head ty w : (ty = 1 \/ ty = 2)%N -> N.land (ty + 32 * w) 3 = ty /\ N.shiftr (ty + 32 * w) 5 = w.
Proof.
  intros H. split.
  - change 3%N with (N.ones 2). rewrite N.land_ones. change (2 ^ 2)%N with 4%N. replace (32 * w)%N with (8 * w * 4)%N by lia.
    rewrite N.mod_add by discriminate. destruct H as [-> | ->]; reflexivity.
  - rewrite N.shiftr_div_pow2. change (2 ^ 5)%N with 32%N. rewrite N.mul_comm, N.div_add by discriminate. destruct H as [-> | ->]; reflexivity.
Qed.
Lemma gap_element_ok g r : gapel_ok g -> exists ty w, (ty =? 0)%N = false /\
  gap_element (gapel_bytes g ++ r) = Ok (ty, w, Some (match g with GapRepeat _ n => RepeatCt n | GapBits _ n _ => GSample n end), r).
Proof.
  destruct g as [w n|w n l]; cbn [gapel_ok gapel_bytes]; unfold gap_element.
  - intros (Hw & Hn). destruct (gap_head 1 (N.of_nat w) (or_introl eq_refl)) as [A B]. set (h := (1 + 32 * N.of_nat w)%N) in *.
    change ((h :: be w n) ++ r) with ([h] ++ (be w n ++ r)). rewrite (take_app 1 [h]) by reflexivity. cbn [obind].
    change (oindex [h] 0) with (@Ok N h). cbn [obind]. rewrite A, B, Nat2N.id, take_app by apply be_length. cbn [obind].
    rewrite sample_be by exact Hn. exists 1%N, (N.of_nat w). split; reflexivity.
  - intros (Hw & Hn & Hl). destruct (gap_head 2 (N.of_nat w) (or_intror eq_refl)) as [A B]. set (h := (2 + 32 * N.of_nat w)%N) in *.
    change ((h :: be w n ++ l) ++ r) with ([h] ++ ((be w n ++ l) ++ r)). rewrite (take_app 1 [h]) by reflexivity. cbn [obind].
    change (oindex [h] 0) with (@Ok N h). cbn [obind]. rewrite A, B, Nat2N.id, <- app_assoc, take_app by apply be_length. cbn [obind].
    rewrite sample_be by exact Hn. change (2 =? 1)%N with false. change (2 =? 2)%N with true. cbv iota.
    rewrite <- Hl, app_length. replace (N.of_nat (length l + length r) <? N.of_nat (length l))%N with false by (symmetry; apply N.ltb_ge; lia).
    rewrite Nat2N.id, (skipn_app_exact l r) by reflexivity. exists 2%N, (N.of_nat w). split; reflexivity.
Qed.
Lemma gap_element_end r : gap_element (0%N :: r) = Ok (0%N, 0%N, None, r).
Proof.
  unfold gap_element. change (0%N :: r) with ([0%N] ++ r). rewrite (take_app 1 [0%N]) by reflexivity. cbn [obind].
  change (oindex [0%N] 0) with (@Ok N 0%N). cbn [obind]. change (N.shiftr 0 5) with 0%N. change (N.land 0 3) with 0%N. change (N.to_nat 0) with 0.
  assert (T : take 0 r = Ok ([], r)) by reflexivity. rewrite T. reflexivity.
Qed.
Lemma gap_list_ok : forall gs fuel times r, Forall gapel_ok gs -> gaps_fit times gs -> length gs < fuel ->
  ipf_gap_list fuel times (gap_stream gs ++ r) = Ok r.
Proof.
  unfold gap_stream. induction gs as [|g gs IH]; intros fuel times r F G L; (destruct fuel as [|f]; [lia|]); cbn [ipf_gap_list flat_map].
  - change (([] ++ [0%N]) ++ r) with (0%N :: r). rewrite gap_element_end. reflexivity.
  - rewrite <- !app_assoc. destruct (gap_element_ok g (flat_map gapel_bytes gs ++ [0%N] ++ r) (Forall_inv F)) as (ty & w & T & E).
    rewrite E. cbn [obind]. rewrite T. cbn [andb]. cbn [length] in L.
    pose proof (Forall_inv_tail F) as F'. destruct g as [w' n|w' n l]; cbn [gaps_fit] in G.
    + rewrite app_assoc. apply IH; [exact F'|exact G|lia].
    + destruct G as [G0 G]. replace (2 ^ 64 <=? n * times)%N with false.
      2:{ symmetry. apply N.leb_gt. eapply N.lt_trans; [exact G0|]. reflexivity. }
      rewrite app_assoc. apply IH; [exact F'|exact G|lia].
Qed.
Lemma gap_stream_length gs : length gs < length (gap_stream gs).
Proof.
  unfold gap_stream. rewrite app_length. cbn [length]. induction gs as [|g gs IH]; [cbn; lia|].
  cbn [flat_map length]. rewrite app_length. destruct g; cbn [gapel_bytes length]; lia.
Qed.
Lemma has_flag_bit x : has_flag x flag_forward = N.testbit x 0 /\ has_flag x flag_backward = N.testbit x 1 /\ has_flag x flag_bits = N.testbit x 2.
Proof.
  assert (G : forall k, negb (N.land x (2 ^ k) =? 0)%N = N.testbit x k).
  { intros k. destruct (N.testbit x k) eqn:T.
    - destruct (N.eqb_spec (N.land x (2 ^ k)) 0) as [Z|Z]; [|reflexivity]. exfalso.
      apply (f_equal (fun y => N.testbit y k)) in Z. rewrite N.land_spec, T, N.pow2_bits_true, N.bits_0 in Z. discriminate.
    - replace (N.land x (2 ^ k)) with 0%N; [reflexivity|]. symmetry. apply N.bits_inj. intros i. rewrite N.land_spec, N.bits_0.
      destruct (N.eq_dec k i) as [<-|E]; [rewrite T; reflexivity|]. rewrite (N.pow2_bits_false k i E). apply andb_false_r. }
  split; [exact (G 0%N)|split; [exact (G 1%N)|exact (G 2%N)]].
Qed.
Lemma skip_edb (file edb rest body r : list N) at_ off : skipn at_ file = edb ++ rest -> skipn off edb = body ++ r ->
  exists r', skipn (at_ + off) file = body ++ r'.
Proof.
  intros Hs Hr. rewrite Nat.add_comm, <- skipn_skipn', Hs, skipn_app, Hr. eexists. rewrite <- app_assoc. reflexivity.
Qed.
Lemma block_lays enc file at_ edb rest m p b : (enc = 1%N \/ enc = 2%N) -> skipn at_ file = edb ++ rest -> block_ok enc edb b -> blank m ->
  exists m', (if (enc =? 2)%N then ipf_v2_block else ipf_v1_block) file at_ m p (blk_of enc b) =
    Ok (m', snd (lay_block enc (mfm_data m, p) b)) /\ blank m' /\ mfm_data m' = fst (lay_block enc (mfm_data m, p) b).
Proof.
  intros He Hs (Hw & Fe & Hf & r & Hr) B.
  assert (Sk : exists r', skipn (at_ + N.to_nat (ib_offset b)) file = stream (ib_elements b) ++ r').
  { exists (r ++ rest). rewrite Nat.add_comm, <- skipn_skipn', Hs, skipn_app, Hr.
    assert (Lo : N.to_nat (ib_offset b) - length edb = 0).
    { destruct (Nat.le_gt_cases (N.to_nat (ib_offset b)) (length edb)) as [L|L]; [lia|exfalso].
      rewrite skipn_all2 in Hr by lia. apply (f_equal (@length N)) in Hr. rewrite app_length in Hr. pose proof (stream_length (ib_elements b)). cbn [length] in Hr. lia. }
    rewrite Lo, skipn_O, <- app_assoc. reflexivity. }
  destruct Sk as (r' & Sk).
  assert (Fu : length (ib_elements b) < S (length file)).
  { pose proof (f_equal (@length N) Sk) as L. rewrite skipn_length, app_length in L. pose proof (stream_length (ib_elements b)) as L2. clear - L L2. lia. }
  destruct (elements_ok (ib_elements b) (S (length file)) m p r' B Fe Fu) as (m' & E & B' & D').
  unfold lay_block. destruct (fold_left lay_element (ib_elements b) (mfm_data m, p)) as [l q] eqn:El. cbn [fst snd] in *.
  exists m'. split; [|split; [exact B'|exact D']]. destruct He as [-> | ->].
  - change (1 =? 2)%N with false. cbv iota. unfold ipf_v1_block. cbn [blk_of bk_enc bk_offset]. change (1 =? 1)%N with true. cbn [negb].
    change (ib_offset b) with (wd 7 (ib_words b)) in Sk. rewrite Sk. exact E.
  - change (2 =? 2)%N with true. cbv iota. unfold ipf_v2_block. cbn [blk_of bk_enc bk_offset bk_gap_bits bk_gap_offset bk_flags]. change (2 =? 2)%N with true. cbn [negb].
    destruct (Hf eq_refl) as [Hb Hg]. unfold gaps_ok in Hg. change (ib_flags b) with (wd 5 (ib_words b)) in Hb, Hg.
    change (ib_gap_bits b) with (wd 1 (ib_words b)) in Hg. change (ib_gap_offset b) with (wd 2 (ib_words b)) in Hg.
    destruct (has_flag_bit (wd 5 (ib_words b))) as (F0 & F1 & F2). rewrite F0, F1, F2, Hb.
    change (ib_offset b) with (wd 7 (ib_words b)) in Sk.
    match goal with |- obind ?x _ = _ => assert (G : exists u, x = Ok u) end.
    { destruct (N.ltb_spec 0 (wd 1 (ib_words b))) as [Hp|]; [|eexists; reflexivity].
      destruct (Hg Hp) as (fw & bw & gr & Ofw & Obw & Gf & Gb & Hk). rewrite app_assoc in Hk.
      destruct (skip_edb _ _ _ _ _ _ _ Hs Hk) as (r2 & ->).
      destruct (Nat.le_gt_cases (length (gap_stream fw)) (length file)) as [Lf|Lf].
      2:{ destruct (N.testbit (wd 5 (ib_words b)) 0) eqn:T0; [exfalso|]. 
          - pose proof (f_equal (@length N) Hk) as L. rewrite !app_length, skipn_length in L. pose proof (f_equal (@length N) Hs) as L2.
            rewrite skipn_length, app_length in L2. clear - L L2 Lf. lia.
          - cbn [app obind]. destruct (N.testbit (wd 5 (ib_words b)) 1) eqn:T1; [|eexists; reflexivity].
            eexists. apply gap_list_ok; [exact Obw|exact Gb|].
            pose proof (f_equal (@length N) Hk) as L. rewrite !app_length, skipn_length in L. pose proof (f_equal (@length N) Hs) as L2.
            rewrite skipn_length, app_length in L2. pose proof (gap_stream_length bw) as L3. clear - L L2 L3. cbn [length] in L. lia. }
      assert (Lb : N.testbit (wd 5 (ib_words b)) 1 = true -> length bw < S (length file)).
      { intros T1. rewrite T1 in Hk. pose proof (f_equal (@length N) Hk) as L. rewrite !app_length, skipn_length in L. pose proof (f_equal (@length N) Hs) as L2.
        rewrite skipn_length, app_length in L2. pose proof (gap_stream_length bw) as L3. clear - L L2 L3. lia. }
      pose proof (gap_stream_length fw) as Lw. destruct (N.testbit (wd 5 (ib_words b)) 0).
      - rewrite <- app_assoc, gap_list_ok; [|exact Ofw|exact Gf|clear - Lf Lw; lia]. cbn [obind].
        destruct (N.testbit (wd 5 (ib_words b)) 1); [|eexists; reflexivity]. eexists. apply gap_list_ok; auto.
      - cbn [app obind]. destruct (N.testbit (wd 5 (ib_words b)) 1); [|eexists; reflexivity]. eexists. apply gap_list_ok; auto. }
    destruct G as [u ->]. cbn [obind]. rewrite Sk, E. reflexivity.
Qed.
Lemma track_lays enc file at_ edb rest : (enc = 1%N \/ enc = 2%N) -> skipn at_ file = edb ++ rest -> forall bs m p, Forall (block_ok enc edb) bs -> blank m ->
  exists m', ipf_track_blocks (enc =? 2)%N file (mkDri at_ (map (blk_of enc) bs)) m p = Ok (m', snd (fold_left (lay_block enc) bs (mfm_data m, p))) /\
    blank m' /\ mfm_data m' = fst (fold_left (lay_block enc) bs (mfm_data m, p)).
Proof.
  intros He Hs. unfold ipf_track_blocks. cbn [dr_blocks dr_edb]. induction bs as [|b bs IH]; intros m p F B; cbn [map ofold fold_left].
  - exists m. cbn [fst snd]. auto.
  - destruct (block_lays enc file at_ edb rest m p b He Hs (Forall_inv F) B) as (m1 & E1 & B1 & D1). rewrite E1. cbn [obind].
    destruct (IH m1 (snd (lay_block enc (mfm_data m, p) b)) (Forall_inv_tail F) B1) as (m2 & E2 & B2 & D2).
    rewrite D1, <- surjective_pairing in E2, D2. exists m2. auto.
Qed.
