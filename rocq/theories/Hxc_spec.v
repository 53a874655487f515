(* Hxc_spec.v - HxC .mfm and .hfe files: the fields of the file by position. *)
From Verif Require Import Base Chs_model BitRing_model Mfm_model Types_model System34_model BitStream_model DiskImage_model DiskImage_spec Pce_spec F86_spec Layout_spec.

(* ---- .mfm ---- *)
Definition hxm_advanced (file : list N) : bool := N.testbit (byte_at file 14) 7.
Definition hxm_count (file : list N) : nat := N.to_nat (le16_at file 7) * N.to_nat (byte_at file 9).
Definition hxm_stride (file : list N) : nat := if hxm_advanced file then 15 else 11.
(* position of entry i of the track list *)
Definition hxm_entry (file : list N) (i : nat) : nat := N.to_nat (le32_at file 15) + i * hxm_stride file.
Definition hxm_cyl (file : list N) (i : nat) : N := le16_at file (hxm_entry file i).
Definition hxm_side (file : list N) (i : nat) : N := byte_at file (hxm_entry file i + 2).
(* length in bytes, or in cells for "advanced" entries *)
Definition hxm_size (file : list N) (i : nat) : N := le32_at file (hxm_entry file i + (if hxm_advanced file then 7 else 3)).
Definition hxm_offset (file : list N) (i : nat) : N := le32_at file (hxm_entry file i + (if hxm_advanced file then 11 else 7)).
Definition hxm_octets (file : list N) (i : nat) : N := if hxm_advanced file then ((hxm_size file i + 7) / 8)%N else hxm_size file i.
Definition hxm_data (file : list N) (i : nat) : list N := bytes_at file (N.to_nat (hxm_offset file i)) (N.to_nat (hxm_octets file i)).
Definition hxm_ct (file : list N) (i : nat) : option nat := if hxm_advanced file then Some (N.to_nat (hxm_size file i)) else None.
Definition hxm_cells (file : list N) (i : nat) : list bool :=
  let l := flat_map byte_bits (hxm_data file i) in
  match hxm_ct file i with Some n => firstn n l | None => l end.
Record hxm_file (file : list N) : Prop := mkHxmFile {
  hm_len : 19 <= length file;
  hm_magic : map (byte_at file) (seq 0 6) = [0x48; 0x58; 0x43; 0x4D; 0x46; 0x4D]%N;       (* HXCMFM *)
  hm_table : forall i, i < hxm_count file -> hxm_entry file i + hxm_stride file <= length file;
  hm_inside : forall i, i < hxm_count file -> hxm_octets file i = 0%N \/ (hxm_offset file i + hxm_octets file i <= N.of_nat (length file))%N;
  hm_side : forall i, i < hxm_count file -> (hxm_side file i < 2)%N }.
(* number of entries before entry i for the same side *)
Definition hxm_rank (file : list N) (i : nat) : nat := length (filter (fun k => (hxm_side file k =? hxm_side file i)%N) (seq 0 i)).

(* ---- .hfe ---- *)
Definition hfe_count (file : list N) : nat := N.to_nat (byte_at file 9).
Definition hfe_sides (file : list N) : N := byte_at file 10.
Definition hfe_entry (file : list N) (i : nat) : nat := N.to_nat (le16_at file 18) * 512 + 4 * i.
Definition hfe_pos (file : list N) (i : nat) : nat := N.to_nat (le16_at file (hfe_entry file i)) * 512.
Definition hfe_len (file : list N) (i : nat) : nat := N.to_nat (le16_at file (hfe_entry file i + 2)).
Record hfe_file (file : list N) : Prop := mkHfeFile {
  he_len : 26 <= length file;
  he_magic : map (byte_at file) (seq 0 8) = [0x48; 0x58; 0x43; 0x50; 0x49; 0x43; 0x46; 0x45]%N;     (* HXCPICFE *)
  he_table : forall i, i < hfe_count file -> hfe_entry file i + 4 <= length file;
  he_even : forall i, i < hfe_count file -> Nat.even (hfe_len file i) = true;
  he_order : forall i, S i < hfe_count file -> hfe_pos file i <= hfe_pos file (S i);
  he_inside : forall i, i < hfe_count file -> hfe_pos file i + hfe_len file i <= length file }.
(* the HFE format: a track is a series of 512 byte blocks, 256 bytes for side 0 and 256 bytes for side 1; cells are stored from the
   least significant bit of a byte on *)
Definition hfe_byte_pos (file : list N) (i side j : nat) : nat := hfe_pos file i + 512 * (j / 256) + 256 * side + j mod 256.
Definition hfe_cells (file : list N) (i side : nat) : list bool :=
  flat_map (fun j => rev (byte_bits (byte_at file (hfe_byte_pos file i side j)))) (seq 0 (hfe_len file i / 2)).
(* where the loader takes side 1 from: in the last, incomplete block the bytes of side 1 directly follow those of side 0 *)
Definition hfe_loaded_pos (file : list N) (i side j : nat) : nat :=
  hfe_pos file i + 512 * (j / 256) + (if j / 256 <? hfe_len file i / 512 then 256 else (hfe_len file i mod 512) / 2) * side + j mod 256.
Definition hfe_loaded_cells (file : list N) (i side : nat) : list bool :=
  flat_map (fun j => rev (byte_bits (byte_at file (hfe_loaded_pos file i side j)))) (seq 0 (hfe_len file i / 2)).
