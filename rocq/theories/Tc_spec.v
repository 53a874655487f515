(* Tc_spec.v - TransCopy files: the fields of the file by position. *)
From Verif Require Import Base Chs_model BitRing_model Mfm_model Types_model System34_model BitStream_model DiskImage_model DiskImage_spec Pce_spec F86_spec Layout_spec.

Definition tc_skew (file : list N) (i : nat) : N := le16_at file (0x105 + 2 * i).
Definition tc_offset (file : list N) (i : nat) : N := be16_at file (0x305 + 2 * i).     (* in units of 256 bytes *)
Definition tc_size (file : list N) (i : nat) : N := le16_at file (0x505 + 2 * i).
Definition tc_flag (file : list N) (i : nat) : N := le16_at file (0x705 + 2 * i).
(* the n first entries of the four tables are in use, and no more *)
Definition tc_used (file : list N) (n : nat) : Prop :=
  n <= 256 /\
  (forall i, i < n -> tc_skew file i <> 0x1111%N /\ tc_offset file i <> 0%N /\ tc_size file i <> 0x3333%N /\ tc_flag file i <> 0x4444%N) /\
  (n < 256 -> tc_skew file n = 0x1111%N /\ tc_offset file n = 0%N /\ tc_size file n = 0x3333%N /\ tc_flag file n = 0x4444%N).
(* a file for PC disks with `used` table entries *)
Record tc_file (file : list N) (used sides : nat) : Prop := mkTcFile {
  tf_len : 0x905 <= length file;
  tf_magic : byte_at file 0 = 0x5A%N /\ byte_at file 1 = 0xA5%N;
  tf_type : In (byte_at file 0x100) [0xFF; 2; 3; 7]%N;
  tf_start : byte_at file 0x101 = 0%N;
  tf_sides : byte_at file 0x103 = N.of_nat sides /\ (sides = 1 \/ sides = 2);
  tf_incr : byte_at file 0x104 = 1%N;
  tf_used : tc_used file used;
  tf_inside : forall i, i < 2 * (used / 2) -> tc_size file i <> 0%N /\ (tc_offset file i * 256 + tc_size file i <= N.of_nat (length file))%N }.
(* the bytes of track i *)
Definition tc_data (file : list N) (i : nat) : list N := bytes_at file (N.to_nat (tc_offset file i * 256)) (N.to_nat (tc_size file i)).
(* the track holds these bytes; a cell is weak when it and the six cells before it are zeros *)
Definition tc_holds (t : BitTrack) (data : list N) : Prop :=
  cells t = flat_map byte_bits data /\
  forall i, i < length (cells t) -> (weak_cell t i = true <-> 6 <= i /\ forall k, k <= 6 -> cell t (i - k) = false).
