(* Crc_model.v - src/util.rs CRC-16 functions. *)
From Verif Require Import Base.

(* util.rs 97-102 and 113-118: one round of the inner loop on a u16.
   `crc & 0x8000 != 0`, then `(crc << 1) ^ POLY` or `crc << 1` (u16 shift drops bit 16). *)
Definition crc16_round (crc : N) : N :=
  if negb (N.land crc 0x8000 =? 0)%N then N.lxor (as_u16 (N.shiftl crc 1)) 0x1021
  else as_u16 (N.shiftl crc 1).

(* util.rs 110-122 crc_ibm_3740_byte: `crc ^= (byte as u16) << 8`, then eight rounds. *)
Definition crc_ibm_3740_byte (byte crc : N) : N :=
  N.iter 8 crc16_round (N.lxor crc (N.shiftl byte 8)).

(* util.rs 89-105 crc_ibm_3740: the same loop body as crc_ibm_3740_byte for each byte (the code is
   duplicated in the source), starting from `start` or 0xFFFF. *)
Definition crc_ibm_3740 (data : list N) (start : option N) : N :=
  fold_left (fun crc byte => crc_ibm_3740_byte byte crc) data
            (match start with Some s => s | None => 0xFFFF%N end).

(* u16::to_be_bytes / from_be_bytes *)
Definition be16 (x : N) : list N := [(x / 256)%N; (x mod 256)%N].
Definition from_be16 (hi lo : N) : N := (hi * 256 + lo)%N.

(* system34.rs 1173-1179 crc16_bytes: (recorded, calculated).  `saturating_sub` makes the indices of a
   buffer shorter than two bytes 0, which panics only for the empty buffer. *)
Definition crc16_bytes (data : list N) : outcome (N * N) :=
  let n := length data in
  let! hi := oindex data (n - 2) in
  let! lo := oindex data (n - 1) in
  Ok (from_be16 hi lo, crc_ibm_3740 (firstn (n - 2) data) None).
