(* Types_model.v - result and parameter records shared by the track types
   (src/types/structs.rs, src/types/enums.rs RwScope, src/track/mod.rs TrackAnalysis). *)
From Verif Require Import Base Chs_model.

(* structs.rs:47-52 SectorAttributes *)
Record SectorAttributes : Set := mkAttr {
  at_address_error : bool; at_data_error : bool; at_deleted : bool; at_no_dam : bool }.
(* structs.rs:57-65 AddSectorParams (bit_index is unused by the MetaSector track and dropped) *)
Record AddSectorParams : Set := mkAddSector {
  as_id : DiskChsn; as_data : list N; as_weak : option (list N); as_hole : option (list N);
  as_attr : SectorAttributes; as_alternate : bool }.
(* structs.rs:82-85 SectorMapEntry *)
Record SectorMapEntry : Set := mkEntry { me_chsn : DiskChsn; me_attr : SectorAttributes }.
(* enums.rs RwScope *)
Inductive RwScope : Set := EntireElement | DataOnly | CrcOnly.

(* structs.rs:147-167 ScanSectorResult *)
Record ScanSectorResult : Set := mkScan {
  sc_not_found : bool; sc_no_dam : bool; sc_deleted : bool; sc_address_error : bool;
  sc_data_error : bool; sc_wrong_cylinder : bool; sc_bad_cylinder : bool; sc_wrong_head : bool }.
(* structs.rs:169-182 Default *)
Definition scan_default : ScanSectorResult := mkScan true false false false false false false false.

(* structs.rs:191-195 IntegrityField<u16> (recorded always present here) *)
Record Integrity : Set := mkIntegrity { in_recorded : N; in_calculated : N }.
(* structs.rs:251-256 is_valid *)
Definition integrity_valid (i : Integrity) : bool := (in_recorded i =? in_calculated i)%N.

(* structs.rs:265-298 ReadSectorResult; data_range is (start, end) *)
Record ReadSectorResult : Set := mkRead {
  rs_id : option DiskChsn; rs_not_found : bool; rs_no_dam : bool; rs_deleted : bool;
  rs_address_crc_error : bool; rs_address_crc : option Integrity;
  rs_data_crc_error : bool; rs_data_crc : option Integrity;
  rs_wrong_cylinder : bool; rs_bad_cylinder : bool; rs_wrong_head : bool; rs_last_sector : bool;
  rs_range : nat * nat; rs_buf : list N }.
(* structs.rs:300-319 Default: not_found is true *)
Definition read_default : ReadSectorResult :=
  mkRead None true false false false None false None false false false false (0, 0) [].
(* structs.rs:322-324 data(): slicing panics when the range is not inside the buffer *)
Definition read_data_of (r : ReadSectorResult) : outcome (list N) :=
  let (a, b) := rs_range r in
  if (b <? a) || (length (rs_buf r) <? b) then Panic else Ok (slice (rs_buf r) a (b - a)).

(* structs.rs:329-346 ReadTrackResult *)
Record ReadTrackResult : Set := mkTrackRead {
  rt_not_found : bool; rt_deleted : bool; rt_address_crc_error : bool; rt_data_crc_error : bool;
  rt_sectors_read : N; rt_buf : list N; rt_len_bits : nat; rt_len_bytes : nat }.
(* structs.rs:350-367 WriteSectorResult *)
Record WriteSectorResult : Set := mkWrite {
  wr_not_found : bool; wr_no_dam : bool; wr_address_crc_error : bool;
  wr_wrong_cylinder : bool; wr_bad_cylinder : bool; wr_wrong_head : bool }.

(* track/mod.rs TrackAnalysis and its Default *)
Record TrackAnalysis : Set := mkAnalysis {
  ta_data_error : bool; ta_address_error : bool; ta_deleted : bool; ta_no_dam : bool;
  ta_consistent_size : option N; ta_nonconsecutive : bool; ta_overlapping : bool;
  ta_crossing_index : bool; ta_sector_ct : nat }.
