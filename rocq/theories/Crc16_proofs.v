(* Crc16_proofs.v - the CRC-16 of the code as an instance of Crc_proofs.v. *)
From Verif Require Import Base Base_lemmas Mfm_spec Mfm_proofs Crc_model Crc_spec Crc_proofs.
From Coq Require Import Btauto.

Local Notation P := 0x1021%N.
Lemma HW16 : (1 <= 16)%N. Proof. lia. Qed.
Lemma HG16 : (P < 2 ^ 16)%N. Proof. vm_compute; reflexivity. Qed.
Lemma Hodd16 : N.testbit P 0 = true. Proof. reflexivity. Qed.

Lemma crc16_round_zstep s : crc16_round s = zstep 16 P s.
Proof.
  unfold crc16_round, zstep, as_u16. rewrite N.shiftl_mul_pow2, N.pow_1_r, (N.mul_comm s 2).
  replace (negb (N.land s 0x8000 =? 0)%N) with (N.testbit s 15).
  - change (16 - 1)%N with 15%N. destruct (N.testbit s 15); auto. rewrite N.lxor_0_r. reflexivity.
  - change 0x8000%N with (2 ^ 15)%N.
    destruct (N.testbit s 15) eqn:E.
    + destruct (N.eqb_spec (N.land s (2 ^ 15)) 0) as [H|H]; auto.
      pose proof (f_equal (fun x => N.testbit x 15) H) as H1. cbn beta in H1.
      rewrite N.land_spec, E in H1. discriminate.
    + destruct (N.eqb_spec (N.land s (2 ^ 15)) 0) as [H|H]; auto.
      exfalso; apply H. apply N.bits_inj; intros i. rewrite N.land_spec, N.bits_0, N.pow2_bits_eqb.
      destruct (N.eqb_spec 15 i) as [<-|]; [rewrite E; auto|apply andb_false_r].
Qed.
Lemma iter_zeros k s : N.iter (N.of_nat k) crc16_round s = zeros 16 P k s.
Proof.
  revert s; induction k as [|k IH]; intros s; [reflexivity|].
  rewrite Nat2N.inj_succ, N.iter_succ_r. rewrite IH, crc16_round_zstep. reflexivity.
Qed.
Lemma crc_byte_bits b s : (b < 256)%N -> (s < 2 ^ 16)%N ->
  crc_ibm_3740_byte b s = crcb 16 P s (byte_bits b).
Proof.
  intros Hb Hs. rewrite (crcb_block 16 P HW16 HG16) by (auto; cbn; lia).
  rewrite bits_val_byte_bits by auto. cbn [length byte_bits].
  unfold crc_ibm_3740_byte. change 8%N with (N.of_nat 8) at 1. rewrite iter_zeros.
  rewrite N.shiftl_mul_pow2. reflexivity.
Qed.
Lemma crc_fold data s : bytes_ok data = true -> (s < 2 ^ 16)%N ->
  fold_left (fun crc byte => crc_ibm_3740_byte byte crc) data s = crcb 16 P s (bits_of data).
Proof.
  revert s; induction data as [|b data IH]; intros s Hd Hs; auto.
  cbn [bytes_ok forallb] in Hd. apply andb_prop in Hd as [Hb Hd].
  cbn [fold_left bits_of flat_map]. rewrite crcb_app, <- crc_byte_bits by (auto; unfold is_byte in Hb; lia).
  apply IH; auto. rewrite crc_byte_bits by (auto; unfold is_byte in Hb; lia).
  apply crcb_lt; auto using HW16, HG16.
Qed.
Lemma crc_some data s : bytes_ok data = true -> (s < 2 ^ 16)%N ->
  crc_ibm_3740 data (Some s) = crcb 16 P s (bits_of data).
Proof. apply crc_fold. Qed.
Lemma crc_none data : crc_ibm_3740 data None = crc_ibm_3740 data (Some 0xFFFF%N).
Proof. reflexivity. Qed.
Lemma crc_lt data s : bytes_ok data = true -> (s < 2 ^ 16)%N -> (crc_ibm_3740 data (Some s) < 2 ^ 16)%N.
Proof. intros Hd Hs. rewrite crc_some by auto. apply crcb_lt; auto using HW16, HG16. Qed.
Lemma crc_lt_none data : bytes_ok data = true -> (crc_ibm_3740 data None < 65536)%N.
Proof. intros Hd. rewrite crc_none. apply crc_lt; auto. reflexivity. Qed.

Lemma crc_app a b s : crc_ibm_3740 (a ++ b) s = crc_ibm_3740 b (Some (crc_ibm_3740 a s)).
Proof. unfold crc_ibm_3740. rewrite fold_left_app. reflexivity. Qed.

Lemma be16_ok c : (c < 65536)%N -> bytes_ok (be16 c) = true.
Proof.
  intros H. cbn [be16 bytes_ok forallb]. unfold is_byte.
  assert (c / 256 < 256)%N by (apply N.div_lt_upper_bound; lia).
  assert (c mod 256 < 256)%N by (apply N.mod_lt; lia). lia.
Qed.
Lemma from_be16_be16 c : from_be16 (c / 256) (c mod 256) = c.
Proof. unfold from_be16. pose proof (N.div_mod c 256). lia. Qed.
Lemma bits_val_pair hi lo : (hi < 256)%N -> (lo < 256)%N ->
  bits_val (bits_of [hi; lo]) = from_be16 hi lo.
Proof.
  intros H1 H2. cbn [bits_of flat_map]. rewrite app_nil_r, bits_val_app, !bits_val_byte_bits by auto.
  unfold from_be16. cbn [length byte_bits]. change (2 ^ N.of_nat 8)%N with 256%N. reflexivity.
Qed.

(* The check used by readers: recorded = calculated exactly when the CRC of the whole is zero. *)
Lemma crc_check data hi lo s : bytes_ok data = true -> (hi < 256)%N -> (lo < 256)%N -> (s < 2 ^ 16)%N ->
  crc_ibm_3740 (data ++ [hi; lo]) (Some s) = 0%N <-> from_be16 hi lo = crc_ibm_3740 data (Some s).
Proof.
  intros Hd Hh Hl Hs.
  assert (Hok : bytes_ok (data ++ [hi; lo]) = true).
  { rewrite bytes_ok_app, Hd. cbn [bytes_ok forallb]. unfold is_byte. lia. }
  rewrite !crc_some by auto. rewrite bits_of_app.
  rewrite (crcb_check 16 P HW16 HG16) by (auto using Hodd16).
  rewrite bits_val_pair by auto. reflexivity.
Qed.

Lemma crc16_bytes_split data hi lo :
  crc16_bytes (data ++ [hi; lo]) = Ok (from_be16 hi lo, crc_ibm_3740 data None).
Proof.
  unfold crc16_bytes, oindex. rewrite app_length. cbn [length].
  replace (length data + 2 - 2) with (length data) by lia.
  replace (length data + 2 - 1) with (length data + 1) by lia.
  rewrite !nth_error_app2 by lia. replace (length data - length data) with 0 by lia.
  replace (length data + 1 - length data) with 1 by lia. cbn [nth_error obind].
  rewrite firstn_app, Nat.sub_diag, firstn_all, firstn_O, app_nil_r. reflexivity.
Qed.
Lemma split_last2 (l : list N) n : length l = n + 2 -> exists d hi lo, l = d ++ [hi; lo] /\ length d = n.
Proof.
  intros H. exists (firstn n l).
  pose proof (firstn_skipn n l) as E.
  assert (Hs : length (skipn n l) = 2) by (rewrite skipn_length; lia).
  destruct (skipn n l) as [|hi [|lo [|x t]]] eqn:Es; try discriminate.
  exists hi, lo. split; auto. rewrite firstn_length; lia.
Qed.

(* Damaged code words. *)
Definition codeword (data : list N) : list N := data ++ be16 (crc_ibm_3740 data None).
Lemma codeword_ok data : bytes_ok data = true -> bytes_ok (codeword data) = true.
Proof. intros H. unfold codeword. rewrite bytes_ok_app, H, be16_ok by (apply crc_lt_none; auto). auto. Qed.
Lemma codeword_crc data : bytes_ok data = true -> crcb 16 P 0xFFFF (bits_of (codeword data)) = 0%N.
Proof.
  intros H. rewrite <- crc_some by (try reflexivity; apply codeword_ok; auto).
  unfold codeword. change (be16 (crc_ibm_3740 data None)) with
    [(crc_ibm_3740 data None / 256)%N; (crc_ibm_3740 data None mod 256)%N].
  pose proof (crc_lt_none data H) as Hc.
  apply crc_check; auto; try reflexivity.
  - apply N.div_lt_upper_bound; lia.
  - apply N.mod_lt; lia.
  - rewrite from_be16_be16. reflexivity.
Qed.
Lemma damaged_iff data cw' :
  bytes_ok data = true -> bytes_ok cw' = true -> length cw' = length data + 2 ->
  exists r c, crc16_bytes cw' = Ok (r, c) /\
    (r = c <-> crcb 16 P 0 (bit_diff (bits_of (codeword data)) (bits_of cw')) = 0%N).
Proof.
  intros Hd Hc Hl. destruct (split_last2 cw' (length data) Hl) as (d & hi & lo & -> & Hd').
  rewrite crc16_bytes_split. do 2 eexists. split; [reflexivity|].
  rewrite bytes_ok_app in Hc. apply andb_prop in Hc as [Hc1 Hc2].
  cbn [bytes_ok forallb] in Hc2. unfold is_byte in Hc2.
  rewrite crc_none, <- crc_check by (auto; try lia; reflexivity).
  rewrite crc_some; [|rewrite bytes_ok_app, Hc1; cbn [bytes_ok forallb]; unfold is_byte; lia|reflexivity].
  rewrite <- (N.lxor_nilpotent 0xFFFF).
  rewrite <- (crcb_linear 16 P HW16 HG16 0xFFFF 0xFFFF).
  - rewrite codeword_crc by auto. rewrite N.lxor_0_l. reflexivity.
  - rewrite !bits_of_length. unfold codeword. rewrite !app_length. cbn [length be16]. lia.
Qed.

(* Parity: the polynomial has an even number of terms. *)
Definition par16 (s : N) : bool := odd_ones (map (N.testbit s) (Nseq 16)).
Lemma odd_ones_xor {A} (f g : A -> bool) l :
  odd_ones (map (fun i => xorb (f i) (g i)) l) = xorb (odd_ones (map f l)) (odd_ones (map g l)).
Proof. induction l as [|x l IH]; auto. cbn [map odd_ones fold_right] in *. unfold odd_ones in IH. rewrite IH. btauto. Qed.
Lemma par16_lxor a b : par16 (N.lxor a b) = xorb (par16 a) (par16 b).
Proof.
  unfold par16. rewrite <- odd_ones_xor. f_equal. apply map_ext. intros i. apply N.lxor_spec.
Qed.
Lemma par16_zstep s : (s < 65536)%N -> par16 (zstep 16 P s) = par16 s.
Proof.
  intros _. unfold par16. change (Nseq 16) with [0;1;2;3;4;5;6;7;8;9;10;11;12;13;14;15]%N.
  cbn [map]. rewrite !(zstep_testbit 16 P HW16 HG16).
  repeat match goal with |- context [N.testbit P ?i] => let v := eval compute in (N.testbit P i) in change (N.testbit P i) with v end.
  repeat match goal with |- context [(?i <? 16)%N] => let v := eval compute in (i <? 16)%N in change (i <? 16)%N with v end.
  repeat match goal with |- context [(?i =? 0)%N] => let v := eval compute in (i =? 0)%N in change (i =? 0)%N with v end.
  repeat match goal with |- context [(?i - 1)%N] => let v := eval compute in (i - 1)%N in change (i - 1)%N with v end.
  cbn [odd_ones fold_right]. generalize (N.testbit s). intros t.
  btauto.
Qed.
Lemma par16_crcb s l : (s < 65536)%N -> par16 (crcb 16 P s l) = xorb (par16 s) (odd_ones l).
Proof.
  revert s; induction l as [|b l IH]; intros s Hs.
  - cbn [crcb fold_left odd_ones fold_right]. rewrite xorb_false_r. reflexivity.
  - cbn [crcb fold_left]. fold (crcb 16 P (bstep 16 P s b) l).
    rewrite IH by (apply (bstep_lt 16 P HW16 HG16)).
    unfold bstep. rewrite par16_zstep.
    + rewrite par16_lxor. cbn [odd_ones fold_right].
      replace (par16 (if b then 2 ^ (16 - 1) else 0)) with b by (destruct b; reflexivity). fold (odd_ones l). btauto.
    + apply (lxor_lt _ _ 16); auto. destruct b; reflexivity.
Qed.

(* The multiplicative order of x is 32767. *)
Fixpoint order_chk (n : nat) (s : N) : bool :=
  match n with O => true | S k => negb (s =? 0x8000)%N && order_chk k (zstep 16 P s) end.
Lemma order_chk_spec n s k : order_chk n s = true -> k < n -> zeros 16 P k s <> 0x8000%N.
Proof.
  revert s k; induction n as [|n IH]; intros s k H Hk; [lia|].
  cbn [order_chk] in H. apply andb_prop in H as [H1 H2].
  destruct k as [|k]; cbn [zeros]; [lia|]. apply IH; auto; lia.
Qed.
Lemma order_16 k : (N.of_nat k < 32766)%N -> zeros 16 P k (zstep 16 P 0x8000) <> 0x8000%N.
Proof.
  intros Hk. apply (order_chk_spec (N.to_nat 32766)); [vm_compute; reflexivity|lia].
Qed.

(* Lists with one, two or three set bits. *)
Definition ones (l : list bool) : nat := count_occ bool_dec l true.
Lemma ones_odd l : odd_ones l = Nat.odd (ones l).
Proof.
  induction l as [|b l IH]; auto. cbn [odd_ones fold_right]. fold (odd_ones l).
  unfold ones in *. destruct b; cbn [count_occ]; destruct (bool_dec _ _); try discriminate; try congruence.
  - rewrite Nat.odd_succ, <- Nat.negb_odd, <- IH. destruct (odd_ones l); reflexivity.
  - rewrite IH. destruct (Nat.odd _); reflexivity.
Qed.
Lemma ones_0 l : ones l = 0 -> l = repeat false (length l).
Proof.
  unfold ones. induction l as [|b l IH]; auto; cbn [count_occ length repeat].
  destruct (bool_dec b true) as [->|Hb]; [discriminate|]. intros H. rewrite <- IH by auto.
  destruct b; congruence.
Qed.
Lemma ones_S l n : ones l = S n -> exists p t, l = repeat false p ++ true :: t /\ ones t = n.
Proof.
  unfold ones. induction l as [|b l IH]; cbn [count_occ]; [discriminate|].
  destruct (bool_dec b true) as [->|Hb]; intros H.
  - exists 0, l. split; auto.
  - destruct (IH H) as (p & t & -> & Ht). exists (S p), t. split; auto.
    cbn [repeat app]. destruct b; congruence.
Qed.

Lemma few_bits d : (N.of_nat (length d) <= 32767)%N -> 1 <= ones d <= 3 -> crcb 16 P 0 d <> 0%N.
Proof.
  intros Hlen H H0.
  destruct (Nat.odd (ones d)) eqn:Eo.
  - pose proof (par16_crcb 0 d ltac:(lia)) as Hp. rewrite H0, ones_odd, Eo in Hp. discriminate.
  - assert (H2 : ones d = 2) by (destruct (ones d) as [|[|[|[|x]]]]; try lia; discriminate).
    destruct (ones_S d 1 H2) as (p & t & Ed & Ht).
    destruct (ones_S t 0 Ht) as (n & u & Et & Hu).
    rewrite (ones_0 u Hu) in Et. subst t. subst d.
    revert H0. apply (crcb_two 16 P HW16 HG16); [reflexivity|].
    rewrite N.lxor_0_r. apply order_16.
    rewrite app_length in Hlen. cbn [length] in Hlen. rewrite app_length in Hlen. cbn [length] in Hlen.
    rewrite !repeat_length in Hlen. lia.
Qed.
