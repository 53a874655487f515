(* Crc32_props.v - C33: the CRCs of the container formats. *)
From Verif Require Import Base Base_lemmas Mfm_spec Crc_spec Crc_proofs Crc32_model Crc32_spec Crc32_proofs.

#[local] Opaque mirror32.

(* The table driven CRC of MOOF/WOZ files never indexes outside its table, and equals the bitwise CRC of
   IPF files. *)
Theorem C33_table_is_bitwise : forall buf, bytes_ok buf = true ->
  applesauce_crc32 buf 0 = Ok (ipf_hasher_finalize (ipf_hasher_update ipf_hasher_new buf)).
Proof.
  intros buf H. unfold applesauce_crc32. rewrite as_fold by auto. reflexivity.
Qed.
Theorem C33_one_shot_is_hasher : forall buf,
  ipf_crc_u32r buf None = ipf_hasher_finalize (ipf_hasher_update ipf_hasher_new buf).
Proof. reflexivity. Qed.

(* Piecewise computation. *)
Theorem C33_incremental_table : forall a b crc, bytes_ok a = true -> bytes_ok b = true ->
  applesauce_crc32 (a ++ b) crc =
  obind (applesauce_crc32 a crc) (fun c => applesauce_crc32 b c).
Proof.
  intros a b crc Ha Hb. unfold applesauce_crc32.
  rewrite !as_fold by (rewrite ?bytes_ok_app, ?Ha, ?Hb; auto). cbn [obind].
  rewrite as_fold by auto. cbn [obind]. rewrite not32_not32, fold_left_app. reflexivity.
Qed.
Theorem C33_incremental_hasher : forall a b h,
  ipf_hasher_update h (a ++ b) = ipf_hasher_update (ipf_hasher_update h a) b.
Proof. intros. apply fold_left_app. Qed.

(* The values: remainders modulo the CRC-32 polynomials (CRC-32C for PCE, CRC-32 for the others). *)
Theorem C33_pce_is_remainder : forall buf, bytes_ok buf = true ->
  is_rem 32 0x11EDC6F41 (bits_val (bits_of buf) * 2 ^ 32) (pce_crc buf).
Proof.
  intros buf H. rewrite pce_crc_crcb by auto.
  pose proof (crcb_rem 32 0x1EDC6F41 HW32 HP32 0 (bits_of buf) ltac:(reflexivity)) as R.
  rewrite N.mul_0_l, N.lxor_0_l in R. exact R.
Qed.
Theorem C33_crc32_is_remainder : forall buf, bytes_ok buf = true ->
  exists crc, applesauce_crc32 buf 0 = Ok crc /\ (crc < 2 ^ 32)%N /\
  is_rem 32 0x104C11DB7
    (N.lxor (0xFFFFFFFF * 2 ^ N.of_nat (8 * length buf)) (bits_val (bits_lsb buf) * 2 ^ 32))
    (mirror32 (N.lxor crc 0xFFFFFFFF)).
Proof.
  intros buf H.
  destruct (ipf_fold buf 0xFFFFFFFF H ltac:(reflexivity)) as [Hlt Hm].
  exists (not32 (fold_left ipf_byte buf 0xFFFFFFFF%N)).
  split; [unfold applesauce_crc32; rewrite as_fold by auto; reflexivity|].
  split; [apply not32_lt; auto|].
  match goal with |- context [N.lxor (not32 ?x) 0xFFFFFFFF] => change (N.lxor (not32 x) 0xFFFFFFFF) with (not32 (not32 x)) end.
  rewrite not32_not32, Hm.
  replace (8 * length buf) with (length (bits_lsb buf)) by apply bits_lsb_length.
  assert (E : mirror32 0xFFFFFFFF = 0xFFFFFFFF%N) by (vm_compute; reflexivity). rewrite E.
  exact (crcb_rem 32 0x04C11DB7 HW32 HQ32 0xFFFFFFFF (bits_lsb buf) ltac:(reflexivity)).
Qed.

(* Damage within 32 consecutive bits always changes each CRC. *)
Theorem C33_pce_burst : forall a b, bytes_ok a = true -> bytes_ok b = true ->
  burst bits_of 32 a b -> pce_crc a <> pce_crc b.
Proof.
  intros a b Ha Hb (Hl & Hne & p & Hp). rewrite !pce_crc_crcb by auto.
  apply crcb_burst_differ with p; auto using HP32; try reflexivity.
  - rewrite !Mfm_proofs.bits_of_length. lia.
  - intros H. apply Hne, bits_of_inj; auto.
Qed.
Theorem C33_crc32_burst : forall a b ca cb, bytes_ok a = true -> bytes_ok b = true ->
  burst bits_lsb 32 a b ->
  applesauce_crc32 a 0 = Ok ca -> applesauce_crc32 b 0 = Ok cb -> ca <> cb.
Proof.
  intros a b ca cb Ha Hb (Hl & Hne & p & Hp) Ea Eb H.
  unfold applesauce_crc32 in *. rewrite as_fold in Ea, Eb by auto. cbn [obind] in *.
  assert (E : not32 (fold_left ipf_byte a (not32 0)) = not32 (fold_left ipf_byte b (not32 0))) by congruence.
  apply (f_equal not32) in E. rewrite !not32_not32 in E.
  apply (f_equal mirror32) in E.
  rewrite (proj2 (ipf_fold a (not32 0) Ha ltac:(reflexivity))), (proj2 (ipf_fold b (not32 0) Hb ltac:(reflexivity))) in E.
  revert E. apply crcb_burst_differ with p; auto using HQ32, mirror_lt; try reflexivity.
  - rewrite !bits_lsb_length. lia.
  - intros H1. apply Hne, bits_lsb_inj; auto.
Qed.

(* Finding: feeding the value returned by ipf_crc_u32r back as `start` does not continue the CRC (the
   returned value is inverted; the library has no caller). *)
Theorem C33_ipf_restart_refuted : exists a b,
  ipf_crc_u32r (a ++ b) None <> ipf_crc_u32r b (Some (ipf_crc_u32r a None)).
Proof. exists [1%N], [2%N]. vm_compute. discriminate. Qed.
Theorem C33_ipf_restart : forall a b start,
  ipf_crc_u32r (a ++ b) start = ipf_crc_u32r b (Some (N.lxor (ipf_crc_u32r a start) 0xFFFFFFFF)).
Proof.
  intros. unfold ipf_crc_u32r.
  match goal with |- context [N.lxor (not32 ?x) 0xFFFFFFFF] => change (N.lxor (not32 x) 0xFFFFFFFF) with (not32 (not32 x)) end.
  rewrite not32_not32, fold_left_app. reflexivity.
Qed.

(* Catalogued check values of CRC-32 ("123456789") and of the PRI end marker; a burst. *)
Example C33_check_values :
  applesauce_crc32 [0x31;0x32;0x33;0x34;0x35;0x36;0x37;0x38;0x39]%N 0 = Ok 0xCBF43926%N /\
  pce_crc [0x45;0x4E;0x44;0x20;0;0;0;0]%N = 0x3d64af78%N.
Proof. vm_compute. auto. Qed.
Example C33_burst_ex : burst bits_of 32 [1;2;3;4;5;6]%N [1;0x82;0xFF;4;0;6]%N.
Proof.
  split; [reflexivity|]. split; [discriminate|]. exists 8. intros i H.
  do 48 (destruct i as [|i]; [first [lia|exfalso; apply H; reflexivity]|]). exfalso; apply H. reflexivity.
Qed.

Print Assumptions C33_table_is_bitwise.
Print Assumptions C33_one_shot_is_hasher.
Print Assumptions C33_incremental_table.
Print Assumptions C33_incremental_hasher.
Print Assumptions C33_pce_is_remainder.
Print Assumptions C33_crc32_is_remainder.
Print Assumptions C33_pce_burst.
Print Assumptions C33_crc32_burst.
Print Assumptions C33_ipf_restart_refuted.
Print Assumptions C33_ipf_restart.
