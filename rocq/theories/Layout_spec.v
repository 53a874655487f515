(* Layout_spec.v - where the tracks of a bitstream file go, and reading fields of a file. *)
From Verif Require Import Base Chs_model BitRing_model Mfm_model Types_model System34_model BitStream_model DiskImage_model DiskImage_spec.

(* the tracks made for one head, in the order of the list: the n-th is cylinder n *)
Definition on_head (h : N) (ts : list BitTrack) : list DTrack := map TBit (filter (fun t => (ch_h (bt_ch t) =? h)%N) ts).
(* fields of a file: 0 behind its end *)
Definition byte_at (file : list N) (p : nat) : N := nth p file 0%N.
Definition le16_at (file : list N) (p : nat) : N := (byte_at file p + 256 * byte_at file (p + 1))%N.
Definition be16_at (file : list N) (p : nat) : N := (256 * byte_at file p + byte_at file (p + 1))%N.
Definition le32_at (file : list N) (p : nat) : N := (le16_at file p + 65536 * le16_at file (p + 2))%N.
(* n bytes from position p *)
Definition bytes_at (file : list N) (p n : nat) : list N := firstn n (skipn p file).
