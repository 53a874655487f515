(* Crc32_proofs.v - the 32-bit CRCs as instances of Crc_proofs.v. *)
From Verif Require Import Base Base_lemmas Mfm_spec Mfm_proofs Crc_spec Crc_proofs Crc32_model Crc32_spec Marker_proofs.
From Coq Require Import Btauto.

Local Notation P := 0x1EDC6F41%N.
Local Notation Q := 0x04C11DB7%N.
Lemma HW32 : (1 <= 32)%N. Proof. lia. Qed.
Lemma HP32 : (P < 2 ^ 32)%N. Proof. reflexivity. Qed.
Lemma HQ32 : (Q < 2 ^ 32)%N. Proof. reflexivity. Qed.

Lemma land_pow2_0 s k : negb (N.land s (2 ^ k) =? 0)%N = N.testbit s k.
Proof.
  destruct (N.testbit s k) eqn:E.
  - destruct (N.eqb_spec (N.land s (2 ^ k)) 0) as [H|H]; auto.
    pose proof (f_equal (fun x => N.testbit x k) H) as H1. cbn beta in H1.
    rewrite N.land_spec, E, N.pow2_bits_true in H1. discriminate.
  - destruct (N.eqb_spec (N.land s (2 ^ k)) 0) as [H|H]; auto.
    exfalso; apply H. apply N.bits_inj; intros i. rewrite N.land_spec, N.bits_0, N.pow2_bits_eqb.
    destruct (N.eqb_spec k i) as [<-|]; [rewrite E; auto|apply andb_false_r].
Qed.

(* PCE *)
Lemma pce_round_zstep s : pce_round s = zstep 32 P s.
Proof.
  unfold pce_round, zstep, as_u32. rewrite N.shiftl_mul_pow2, N.pow_1_r, (N.mul_comm s 2).
  change 0x80000000%N with (2 ^ 31)%N at 1. rewrite land_pow2_0.
  change (32 - 1)%N with 31%N. change (2 ^ 32)%N with 4294967296%N.
  destruct (N.testbit s 31); auto. rewrite N.lxor_0_r. reflexivity.
Qed.
Lemma pce_iter k s : N.iter (N.of_nat k) pce_round s = zeros 32 P k s.
Proof.
  revert s; induction k as [|k IH]; intros s; [reflexivity|].
  rewrite Nat2N.inj_succ, N.iter_succ_r. rewrite IH, pce_round_zstep. reflexivity.
Qed.
Lemma land_FF b : (b < 256)%N -> N.land b 0xFF = b.
Proof. intros H. change 0xFF%N with (N.ones 8). rewrite N.land_ones. apply N.mod_small; auto. Qed.
Lemma pce_byte_bits b s : (b < 256)%N -> (s < 2 ^ 32)%N ->
  pce_byte s b = crcb 32 P s (byte_bits b).
Proof.
  intros Hb Hs. rewrite (crcb_block 32 P HW32 HP32) by (auto; cbn; lia).
  rewrite bits_val_byte_bits by auto. cbn [length byte_bits].
  unfold pce_byte. change 8%N with (N.of_nat 8) at 1. rewrite pce_iter.
  rewrite land_FF, N.shiftl_mul_pow2 by auto. reflexivity.
Qed.
Lemma pce_fold data s : bytes_ok data = true -> (s < 2 ^ 32)%N ->
  fold_left pce_byte data s = crcb 32 P s (bits_of data).
Proof.
  revert s; induction data as [|b data IH]; intros s Hd Hs; auto.
  cbn [bytes_ok forallb] in Hd. apply andb_prop in Hd as [Hb Hd].
  cbn [fold_left bits_of flat_map]. rewrite crcb_app, <- pce_byte_bits by (auto; unfold is_byte in Hb; lia).
  apply IH; auto. rewrite pce_byte_bits by (auto; unfold is_byte in Hb; lia).
  apply crcb_lt; auto using HW32, HP32.
Qed.
Lemma land_ones32 x : (x < 2 ^ 32)%N -> N.land x 0xFFFFFFFF = x.
Proof. intros H. change 0xFFFFFFFF%N with (N.ones 32). rewrite N.land_ones. apply N.mod_small; auto. Qed.
Lemma pce_crc_crcb data : bytes_ok data = true -> pce_crc data = crcb 32 P 0 (bits_of data).
Proof.
  intros Hd. unfold pce_crc. rewrite pce_fold by (auto; reflexivity).
  apply land_ones32, crcb_lt; auto using HW32, HP32.
Qed.
Lemma pce_crc_lt data : (pce_crc data < 2 ^ 32)%N.
Proof.
  unfold pce_crc. change 0xFFFFFFFF%N with (N.ones 32). rewrite N.land_ones. apply N.mod_lt. discriminate.
Qed.

(* Bit reversal. *)
Lemma mirror_bit x i : (i < 32)%N -> N.testbit (mirror32 x) i = N.testbit x (31 - i).
Proof.
  intros Hi. unfold mirror32.
  pose proof (testbit_bits_val (map (fun i => N.testbit x (N.of_nat i)) (seq 0 32)) (31 - N.to_nat i)) as H.
  rewrite map_length, seq_length in H.
  replace (N.of_nat (32 - 1 - (31 - N.to_nat i))) with i in H by lia.
  rewrite H by lia.
  rewrite (nth_indep _ false (N.testbit x (N.of_nat 0))) by (rewrite map_length, seq_length; lia).
  rewrite (map_nth (fun i => N.testbit x (N.of_nat i))). rewrite seq_nth by lia. f_equal; lia.
Qed.
Lemma mirror_lt x : (mirror32 x < 2 ^ 32)%N.
Proof.
  unfold mirror32. pose proof (bits_val_lt (map (fun i => N.testbit x (N.of_nat i)) (seq 0 32))) as H.
  rewrite map_length, seq_length in H. exact H.
Qed.
Lemma eq_bits32 a b : (a < 2 ^ 32)%N -> (b < 2 ^ 32)%N ->
  (forall i, (i < 32)%N -> N.testbit a i = N.testbit b i) -> a = b.
Proof.
  intros Ha Hb H. apply N.bits_inj; intros i. destruct (N.ltb_spec i 32); auto.
  rewrite (bits_lt_pow2 a 32), (bits_lt_pow2 b 32) by auto. reflexivity.
Qed.
Lemma mirror_lxor a b : mirror32 (N.lxor a b) = N.lxor (mirror32 a) (mirror32 b).
Proof.
  apply eq_bits32; [apply mirror_lt|apply lxor_lt; apply mirror_lt|].
  intros i Hi. rewrite N.lxor_spec, !mirror_bit, N.lxor_spec by auto. reflexivity.
Qed.
Lemma mirror_mirror x : (x < 2 ^ 32)%N -> mirror32 (mirror32 x) = x.
Proof.
  intros Hx. apply eq_bits32; auto using mirror_lt. intros i Hi. rewrite !mirror_bit by lia. f_equal; lia.
Qed.
Lemma mirror_inj a b : (a < 2 ^ 32)%N -> (b < 2 ^ 32)%N -> mirror32 a = mirror32 b -> a = b.
Proof. intros Ha Hb H. rewrite <- (mirror_mirror a), <- (mirror_mirror b), H by auto. reflexivity. Qed.

#[local] Opaque mirror32.
(* The reflected round. *)
Lemma ipf_round_bit s i :
  N.testbit (ipf_round s) i = xorb (N.testbit s (i + 1)) (N.testbit s 0 && N.testbit 0xEDB88320 i).
Proof.
  unfold ipf_round. change (N.land s 1) with (N.land s (2 ^ 0)). rewrite land_pow2_0.
  destruct (N.testbit s 0); rewrite ?N.lxor_spec, N.shiftr_spec'; cbn [andb]; auto.
  rewrite xorb_false_r. reflexivity.
Qed.
Lemma ipf_round_lt s : (s < 2 ^ 32)%N -> (ipf_round s < 2 ^ 32)%N.
Proof.
  intros H. apply lt_pow2_bits. intros i Hi. rewrite ipf_round_bit.
  rewrite (bits_lt_pow2 s 32), (bits_lt_pow2 0xEDB88320 32) by (auto; try lia; reflexivity).
  rewrite andb_false_r. reflexivity.
Qed.
Lemma poly_mirror i : (i < 32)%N -> N.testbit 0xEDB88320 (31 - i) = N.testbit Q i.
Proof.
  intros Hi. replace i with (N.of_nat (N.to_nat i)) by lia.
  assert (H : N.to_nat i < 32) by lia. revert H. generalize (N.to_nat i). clear. intros n Hn.
  do 32 (destruct n as [|n]; [reflexivity|]). lia.
Qed.
Lemma ipf_round_zstep s : (s < 2 ^ 32)%N -> mirror32 (ipf_round s) = zstep 32 Q (mirror32 s).
Proof.
  intros Hs. apply eq_bits32; [apply mirror_lt|apply zstep_lt; [exact HW32|exact HQ32]|].
  intros i Hi. rewrite mirror_bit, ipf_round_bit, zstep_testbit by auto using HW32, HQ32.
  rewrite poly_mirror by auto. rewrite (mirror_bit s (32 - 1)) by lia.
  change (31 - (32 - 1))%N with 0%N.
  replace (i <? 32)%N with true by lia.
  destruct (N.eqb_spec i 0) as [->|H0].
  - change (31 - 0 + 1)%N with 32%N. rewrite (bits_lt_pow2 s 32) by (auto; lia). cbn [negb andb].
    destruct (N.testbit s 0); reflexivity.
  - rewrite mirror_bit by lia. replace (31 - (i - 1))%N with (31 - i + 1)%N by lia. cbn [negb andb].
    destruct (N.testbit s (31 - i + 1)), (N.testbit s 0), (N.testbit Q i); reflexivity.
Qed.
Lemma ipf_iter_lt k s : (s < 2 ^ 32)%N -> (N.iter (N.of_nat k) ipf_round s < 2 ^ 32)%N.
Proof.
  revert s; induction k as [|k IH]; intros s Hs; auto.
  rewrite Nat2N.inj_succ, N.iter_succ_r. auto using ipf_round_lt.
Qed.
Lemma ipf_iter k s : (s < 2 ^ 32)%N -> mirror32 (N.iter (N.of_nat k) ipf_round s) = zeros 32 Q k (mirror32 s).
Proof.
  revert s; induction k as [|k IH]; intros s Hs.
  { change (N.iter (N.of_nat 0) ipf_round s) with s. unfold zeros. reflexivity. }
  rewrite Nat2N.inj_succ, N.iter_succ_r. rewrite IH by auto using ipf_round_lt.
  rewrite ipf_round_zstep by auto. rewrite <- zeros_S. reflexivity.
Qed.
Lemma small_lt32 b : (b < 256)%N -> (b < 2 ^ 32)%N.
Proof. intros H. apply N.lt_trans with 256%N; auto. reflexivity. Qed.
Lemma mirror_byte b : (b < 256)%N -> mirror32 b = (bits_val (rev (byte_bits b)) * 2 ^ 24)%N.
Proof.
  intros Hb. replace b with (N.of_nat (N.to_nat b)) by lia.
  assert (H : N.to_nat b < 256) by lia. revert H. generalize (N.to_nat b). clear. intros n Hn.
  assert (A : forallb (fun n => N.eqb (mirror32 (N.of_nat n)) (bits_val (rev (byte_bits (N.of_nat n))) * 2 ^ 24)) (seq 0 256) = true)
    by (vm_compute; reflexivity).
  rewrite forallb_forall in A. apply N.eqb_eq, A, in_seq. lia.
Qed.
Lemma ipf_byte_lt b s : (b < 256)%N -> (s < 2 ^ 32)%N -> (ipf_byte s b < 2 ^ 32)%N.
Proof.
  intros Hb Hs. unfold ipf_byte. change 8%N with (N.of_nat 8). apply ipf_iter_lt, lxor_lt; auto using small_lt32.
Qed.
Lemma ipf_byte_bits b s : (b < 256)%N -> (s < 2 ^ 32)%N ->
  mirror32 (ipf_byte s b) = crcb 32 Q (mirror32 s) (rev (byte_bits b)).
Proof.
  intros Hb Hs. rewrite (crcb_block 32 Q HW32 HQ32) by (auto using mirror_lt; rewrite rev_length; cbn; lia).
  rewrite rev_length. unfold ipf_byte. change 8%N with (N.of_nat 8).
  rewrite ipf_iter by (apply lxor_lt; auto using small_lt32).
  rewrite mirror_lxor, (mirror_byte b) by auto. reflexivity.
Qed.
Lemma ipf_fold data s : bytes_ok data = true -> (s < 2 ^ 32)%N ->
  (fold_left ipf_byte data s < 2 ^ 32)%N /\
  mirror32 (fold_left ipf_byte data s) = crcb 32 Q (mirror32 s) (bits_lsb data).
Proof.
  revert s; induction data as [|b data IH]; intros s Hd Hs; auto.
  cbn [bytes_ok forallb] in Hd. apply andb_prop in Hd as [Hb Hd].
  assert (Hb' : (b < 256)%N) by (unfold is_byte in Hb; lia).
  cbn [fold_left bits_lsb flat_map]. rewrite crcb_app, <- ipf_byte_bits by auto.
  apply IH; auto using ipf_byte_lt.
Qed.

(* The table. *)
Lemma ipf_round_lxor a b : ipf_round (N.lxor a b) = N.lxor (ipf_round a) (ipf_round b).
Proof.
  apply N.bits_inj; intros i. rewrite N.lxor_spec, !ipf_round_bit, !N.lxor_spec. btauto.
Qed.
Lemma ipf_iter_lxor k a b : N.iter (N.of_nat k) ipf_round (N.lxor a b) =
  N.lxor (N.iter (N.of_nat k) ipf_round a) (N.iter (N.of_nat k) ipf_round b).
Proof.
  revert a b; induction k as [|k IH]; intros a b; [reflexivity|].
  rewrite Nat2N.inj_succ, !N.iter_succ_r, ipf_round_lxor. apply IH.
Qed.
Lemma ipf_iter_shift k s : (forall i, (i < N.of_nat k)%N -> N.testbit s i = false) ->
  N.iter (N.of_nat k) ipf_round s = N.shiftr s (N.of_nat k).
Proof.
  revert s; induction k as [|k IH]; intros s H; [symmetry; apply N.shiftr_0_r|].
  assert (E : ipf_round s = N.shiftr s 1).
  { apply N.bits_inj; intros i. rewrite ipf_round_bit, N.shiftr_spec', (H 0%N) by lia.
    cbn [andb]. rewrite xorb_false_r. reflexivity. }
  rewrite Nat2N.inj_succ, N.iter_succ_r, E, IH.
  - rewrite N.shiftr_shiftr. f_equal. lia.
  - intros i Hi. rewrite N.shiftr_spec'. apply H. lia.
Qed.
Lemma table_ok i : i < 256 -> nth_error AS_CRC32_TABLE i = Some (N.iter 8 ipf_round (N.of_nat i)).
Proof.
  intros Hi.
  assert (A : forallb (fun n => match nth_error AS_CRC32_TABLE n with
                                | Some t => N.eqb t (N.iter 8 ipf_round (N.of_nat n)) | None => false end) (seq 0 256) = true)
    by (vm_compute; reflexivity).
  rewrite forallb_forall in A. specialize (A i ltac:(apply in_seq; lia)).
  destruct (nth_error AS_CRC32_TABLE i); [|discriminate]. f_equal. apply N.eqb_eq, A.
Qed.
Lemma as_step_ok crc b : (b < 256)%N -> as_step crc b = Ok (ipf_byte crc b).
Proof.
  intros Hb. unfold as_step, oindex.
  assert (Hl : (N.land (N.lxor crc b) 0xFF < 256)%N).
  { change 0xFF%N with (N.ones 8). rewrite N.land_ones. apply N.mod_lt. discriminate. }
  rewrite table_ok by lia. rewrite N2Nat.id. cbn [obind]. f_equal.
  unfold ipf_byte. set (x := N.lxor crc b).
  assert (E : x = N.lxor (N.land x 0xFF) (N.shiftl (N.shiftr crc 8) 8)).
  { apply N.bits_inj; intros i. rewrite N.lxor_spec, N.land_spec. change 0xFF%N with (N.ones 8).
    destruct (N.ltb_spec i 8).
    - rewrite N.ones_spec_low, N.shiftl_spec_low by auto. rewrite andb_true_r, xorb_false_r. reflexivity.
    - rewrite N.ones_spec_high, N.shiftl_spec_high' by auto. rewrite N.shiftr_spec'.
      replace (i - 8 + 8)%N with i by lia. unfold x. rewrite N.lxor_spec.
      rewrite (bits_lt_pow2 b 8) by auto. rewrite andb_false_r, xorb_false_r. destruct (N.testbit crc i); reflexivity. }
  rewrite E at 2. change 8%N with (N.of_nat 8). rewrite ipf_iter_lxor. f_equal.
  change (N.of_nat 8) with 8%N.
  replace (N.iter 8 ipf_round (N.shiftl (N.shiftr crc 8) 8)) with (N.shiftr (N.shiftl (N.shiftr crc 8) 8) 8).
  - rewrite N.shiftr_shiftl_l by lia. symmetry. rewrite N.sub_diag. apply N.shiftl_0_r.
  - symmetry. change 8%N with (N.of_nat 8). apply ipf_iter_shift. intros i Hi. apply N.shiftl_spec_low. exact Hi.
Qed.
Lemma as_fold data s : bytes_ok data = true -> ofold as_step data s = Ok (fold_left ipf_byte data s).
Proof.
  revert s; induction data as [|b data IH]; intros s Hd; auto.
  cbn [bytes_ok forallb] in Hd. apply andb_prop in Hd as [Hb Hd].
  cbn [ofold fold_left]. rewrite as_step_ok by (unfold is_byte in Hb; lia). cbn [obind]. auto.
Qed.
Lemma not32_lt x : (x < 2 ^ 32)%N -> (not32 x < 2 ^ 32)%N.
Proof. intros H. apply lxor_lt; auto. reflexivity. Qed.
Lemma not32_not32 x : not32 (not32 x) = x.
Proof. unfold not32. rewrite N.lxor_assoc, N.lxor_nilpotent, N.lxor_0_r. reflexivity. Qed.

(* Bursts. *)
Lemma bits_lsb_length l : length (bits_lsb l) = 8 * length l.
Proof. unfold bits_lsb. rewrite (flat_map_const_length _ 8); [lia|]. intros; rewrite rev_length; reflexivity. Qed.
Lemma diff_nth : forall a b i, length a = length b ->
  nth i (bit_diff a b) false = xorb (nth i a false) (nth i b false).
Proof.
  intros a; induction a as [|x a IH]; intros [|y b] i H; try discriminate; [destruct i; reflexivity|].
  destruct i; cbn [bit_diff combine map nth fst snd]; auto. apply IH. cbn in H; lia.
Qed.
Lemma crcb_burst_differ G s a b p : (G < 2 ^ 32)%N -> N.testbit G 0 = true -> (s < 2 ^ 32)%N ->
  length a = length b -> a <> b ->
  (forall i, nth i a false <> nth i b false -> p <= i < p + 32) ->
  crcb 32 G s a <> crcb 32 G s b.
Proof.
  intros HG Ho Hs Hl Hne Hp H.
  pose proof (crcb_linear 32 G HW32 HG s s a b Hl) as E.
  rewrite H, !N.lxor_nilpotent in E. symmetry in E. revert E.
  apply (crcb_burst 32 G HW32 HG); auto.
  - exists p. intros i Hi. rewrite diff_nth in Hi by auto.
    assert (Hx : p <= i < p + 32) by (apply Hp; destruct (nth i a false), (nth i b false); discriminate).
    lia.
  - destruct (in_dec bool_dec true (bit_diff a b)) as [H1|H1]; auto.
    exfalso. apply Hne. apply (nth_ext _ _ false false); auto. intros i Hi.
    pose proof (diff_nth a b i Hl) as Hn.
    destruct (nth i (bit_diff a b) false) eqn:En.
    + exfalso; apply H1. rewrite <- En. apply nth_In. unfold bit_diff. rewrite map_length, combine_length. lia.
    + destruct (nth i a false), (nth i b false); auto; discriminate.
Qed.
Lemma bits_of_inj a b : bytes_ok a = true -> bytes_ok b = true -> bits_of a = bits_of b -> a = b.
Proof.
  intros Ha Hb H. assert (Hl : length a = length b).
  { apply (f_equal (@length bool)) in H. rewrite !Mfm_proofs.bits_of_length in H. lia. }
  rewrite <- (Mfm_proofs.bytes_of_bits_of a) by auto. rewrite <- (Mfm_proofs.bytes_of_bits_of b) by auto.
  rewrite H, Hl. reflexivity.
Qed.
Lemma bits_lsb_inj a b : bytes_ok a = true -> bytes_ok b = true -> bits_lsb a = bits_lsb b -> a = b.
Proof.
  revert b; induction a as [|x a IH]; intros [|y b] Ha Hb H; auto.
  - apply (f_equal (@length bool)) in H. rewrite !bits_lsb_length in H. cbn in H. lia.
  - apply (f_equal (@length bool)) in H. rewrite !bits_lsb_length in H. cbn in H. lia.
  - cbn [bytes_ok forallb] in Ha, Hb. apply andb_prop in Ha as [Hx Ha]. apply andb_prop in Hb as [Hy Hb].
    change (bits_lsb (x :: a)) with (rev (byte_bits x) ++ bits_lsb a) in H.
    change (bits_lsb (y :: b)) with (rev (byte_bits y) ++ bits_lsb b) in H.
    assert (E1 : rev (byte_bits x) = rev (byte_bits y)).
    { apply (f_equal (firstn 8)) in H. rewrite !firstn_app, !rev_length in H.
      replace (8 - length (byte_bits x)) with 0 in H by reflexivity.
      replace (8 - length (byte_bits y)) with 0 in H by reflexivity.
      rewrite !firstn_O, !app_nil_r in H.
      rewrite !firstn_all2 in H by (rewrite rev_length; reflexivity). exact H. }
    assert (E2 : x = y).
    { apply (f_equal (@rev bool)) in E1. rewrite !rev_involutive in E1.
      apply (f_equal bits_val) in E1. rewrite !bits_val_byte_bits in E1 by (unfold is_byte in *; lia). exact E1. }
    f_equal; auto. apply IH; auto. rewrite E1 in H. apply app_inv_head in H. exact H.
Qed.
