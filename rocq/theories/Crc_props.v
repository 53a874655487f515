(* Crc_props.v - C12: CRC-16 detects errors. *)
From Verif Require Import Base Base_lemmas Mfm_spec Crc_model Crc_spec Crc_proofs Crc16_proofs.

(* The CRC is the remainder of  start * x^(8n) + data * x^16  modulo x^16 + x^12 + x^5 + 1. *)
Theorem C12_crc_is_polynomial_remainder : forall data start,
  bytes_ok data = true -> (start < 65536)%N ->
  is_rem 16 0x11021
    (N.lxor (start * 2 ^ N.of_nat (8 * length data)) (bits_val (bits_of data) * 2 ^ 16))
    (crc_ibm_3740 data (Some start)).
Proof.
  intros data start Hd Hs. rewrite crc_some by auto.
  replace (8 * length data) with (length (bits_of data)) by apply Mfm_proofs.bits_of_length.
  exact (crcb_rem 16 0x1021 HW16 HG16 start (bits_of data) Hs).
Qed.
Theorem C12_default_start : forall data, crc_ibm_3740 data None = crc_ibm_3740 data (Some 0xFFFF%N).
Proof. exact crc_none. Qed.

Theorem C12_incremental : forall a b start,
  crc_ibm_3740 (a ++ b) start = crc_ibm_3740 b (Some (crc_ibm_3740 a start)).
Proof. exact crc_app. Qed.
Theorem C12_bytewise : forall b data crc,
  crc_ibm_3740 (b :: data) (Some crc) = crc_ibm_3740 data (Some (crc_ibm_3740_byte b crc)).
Proof. reflexivity. Qed.

(* Data followed by the two bytes hi lo has CRC 0 exactly when they are the CRC of the data. *)
Theorem C12_residue : forall data hi lo start,
  bytes_ok data = true -> (hi < 256)%N -> (lo < 256)%N -> (start < 65536)%N ->
  crc_ibm_3740 (data ++ [hi; lo]) (Some start) = 0%N <->
  (hi * 256 + lo)%N = crc_ibm_3740 data (Some start).
Proof. exact crc_check. Qed.

(* An undamaged record (data followed by its CRC) checks. *)
Theorem C12_intact_record_checks : forall data, bytes_ok data = true ->
  exists c, crc16_bytes (data ++ be16 (crc_ibm_3740 data None)) = Ok (c, c).
Proof.
  intros data H. exists (crc_ibm_3740 data None). unfold be16.
  rewrite crc16_bytes_split, from_be16_be16. reflexivity.
Qed.

(* A record damaged (in the data, in the CRC field or both) within 16 consecutive bits never checks. *)
Theorem C12_burst_detected : forall data cw p,
  bytes_ok data = true -> bytes_ok cw = true ->
  let good := data ++ be16 (crc_ibm_3740 data None) in
  length cw = length good -> cw <> good ->
  (forall i, nth i (bits_of cw) false <> nth i (bits_of good) false -> p <= i < p + 16) ->
  exists recorded calculated, crc16_bytes cw = Ok (recorded, calculated) /\ recorded <> calculated.
Proof.
  intros data cw p Hd Hc good Hl Hne Hp.
  assert (Hl2 : length cw = length data + 2) by (rewrite Hl; unfold good; rewrite app_length; reflexivity).
  destruct (damaged_iff data cw Hd Hc Hl2) as (r & c & E & Hiff).
  exists r, c. split; auto. intros Hrc. apply Hiff in Hrc. revert Hrc.
  assert (Hlb : length (bits_of good) = length (bits_of cw)) by (rewrite !Mfm_proofs.bits_of_length; lia).
  change (codeword data) with good.
  assert (Hgok : bytes_ok good = true) by (apply codeword_ok; auto).
  assert (Hnth : forall i, nth i (bit_diff (bits_of good) (bits_of cw)) false =
                           xorb (nth i (bits_of good) false) (nth i (bits_of cw) false)).
  { revert Hlb. generalize (bits_of good) (bits_of cw). intros a; induction a as [|x a IH]; intros [|y b] H i;
      try discriminate; [destruct i; reflexivity|].
    destruct i; cbn [bit_diff combine map nth fst snd]; auto. apply IH. cbn in H; lia. }
  apply (crcb_burst 16 0x1021 HW16 HG16); [reflexivity| |].
  - exists p. intros i Hi. rewrite Hnth in Hi.
    assert (Hx : p <= i < p + 16) by (apply Hp; destruct (nth i (bits_of good) false), (nth i (bits_of cw) false); discriminate).
    lia.
  - destruct (in_dec bool_dec true (bit_diff (bits_of good) (bits_of cw))) as [H|H]; auto.
    exfalso. apply Hne.
    assert (Hb : bits_of good = bits_of cw).
    { apply (nth_ext _ _ false false); auto. intros i Hi.
      specialize (Hnth i). destruct (nth i (bit_diff (bits_of good) (bits_of cw)) false) eqn:En.
      - exfalso; apply H. rewrite <- En. apply nth_In. unfold bit_diff. rewrite map_length, combine_length. lia.
      - destruct (nth i (bits_of good) false), (nth i (bits_of cw) false); auto; discriminate. }
    rewrite <- (Mfm_proofs.bytes_of_bits_of good) by auto.
    rewrite <- (Mfm_proofs.bytes_of_bits_of cw) by auto. rewrite Hb, Hl. reflexivity.
Qed.

(* So is a record with an odd number of damaged bits, and - if it is at most 4095 bytes long - any
   record with one, two or three damaged bits. *)
Theorem C12_odd_damage_detected : forall data cw,
  bytes_ok data = true -> bytes_ok cw = true ->
  let good := data ++ be16 (crc_ibm_3740 data None) in
  length cw = length good ->
  odd_ones (bit_diff (bits_of good) (bits_of cw)) = true ->
  exists recorded calculated, crc16_bytes cw = Ok (recorded, calculated) /\ recorded <> calculated.
Proof.
  intros data cw Hd Hc good Hl Hodd.
  assert (Hl2 : length cw = length data + 2) by (rewrite Hl; unfold good; rewrite app_length; reflexivity).
  destruct (damaged_iff data cw Hd Hc Hl2) as (r & c & E & Hiff).
  exists r, c. split; auto. intros Hrc. apply Hiff in Hrc.
  change (codeword data) with good in Hrc.
  pose proof (par16_crcb 0 (bit_diff (bits_of good) (bits_of cw)) ltac:(lia)) as Hp.
  rewrite Hrc, Hodd in Hp. discriminate.
Qed.
Theorem C12_three_bits_detected : forall data cw,
  bytes_ok data = true -> bytes_ok cw = true ->
  let good := data ++ be16 (crc_ibm_3740 data None) in
  length cw = length good -> (N.of_nat (length good) <= 4095)%N ->
  1 <= count_occ bool_dec (bit_diff (bits_of good) (bits_of cw)) true <= 3 ->
  exists recorded calculated, crc16_bytes cw = Ok (recorded, calculated) /\ recorded <> calculated.
Proof.
  intros data cw Hd Hc good Hl Hlen Hct.
  assert (Hl2 : length cw = length data + 2) by (rewrite Hl; unfold good; rewrite app_length; reflexivity).
  destruct (damaged_iff data cw Hd Hc Hl2) as (r & c & E & Hiff).
  exists r, c. split; auto. intros Hrc. apply Hiff in Hrc. revert Hrc.
  apply few_bits; auto. unfold bit_diff. rewrite map_length, combine_length, !Mfm_proofs.bits_of_length.
  fold good in Hl. change (codeword data) with good. lia.
Qed.

(* The hypotheses are met: CRC of "123456789" is the catalogued check value 0x29B1, and a damaged copy. *)
Example C12_check_value : crc_ibm_3740 [0x31;0x32;0x33;0x34;0x35;0x36;0x37;0x38;0x39]%N None = 0x29B1%N.
Proof. vm_compute; reflexivity. Qed.
Example C12_damaged_example :
  let data := [0x31;0x32;0x33]%N in let good := data ++ be16 (crc_ibm_3740 data None) in
  let cw := 0x31%N :: 0x33%N :: 0x13%N :: skipn 3 good in
  length cw = length good /\ cw <> good /\
  (forall i, nth i (bits_of cw) false <> nth i (bits_of good) false -> 15 <= i < 15 + 16) /\
  count_occ bool_dec (bit_diff (bits_of good) (bits_of cw)) true = 2 /\
  crc16_bytes cw = Ok (0x5BCE, 0x4C9D)%N.
Proof.
  cbn zeta. split; [reflexivity|]. split; [discriminate|]. split.
  - intros i H. do 40 (destruct i as [|i]; [first [lia|exfalso; apply H; reflexivity]|]).
    exfalso; apply H. reflexivity.
  - split; vm_compute; reflexivity.
Qed.
(* An error of 17 bits can go undetected, so 16 can not be raised: the generator itself. *)
Example C12_burst_bound_sharp : crc_ibm_3740 [0x08; 0x81; 0x08]%N (Some 0%N) = 0%N
  /\ crc_ibm_3740 [0;0;0]%N (Some 0%N) = 0%N.
Proof. vm_compute; auto. Qed.
Print Assumptions C12_burst_detected.
Print Assumptions C12_three_bits_detected.
Print Assumptions C12_crc_is_polynomial_remainder.
Print Assumptions C12_default_start.
Print Assumptions C12_incremental.
Print Assumptions C12_bytewise.
Print Assumptions C12_residue.
Print Assumptions C12_intact_record_checks.
Print Assumptions C12_odd_damage_detected.
