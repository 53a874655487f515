(* Amiga_spec.v - the Amiga trackdisk format, as documented in the ADF format description that amiga.rs
   cites (http://lclevy.free.fr/adflib/adf_info.html); uses no model code but the identifier records. *)
From Verif Require Import Base Chs_model Mfm_spec.

(* A byte's odd-numbered (7, 5, 3, 1) and even-numbered (6, 4, 2, 0) bits, in that order. *)
Definition odd_bits (b : N) : list bool := [N.testbit b 7; N.testbit b 5; N.testbit b 3; N.testbit b 1].
Definition even_bits (b : N) : list bool := [N.testbit b 6; N.testbit b 4; N.testbit b 2; N.testbit b 0].
(* A block of bytes is recorded as all its odd bits and then all its even bits. *)
Definition block (l : list N) : list bool := flat_map odd_bits l ++ flat_map even_bits l.
Definition long (v : N) : list N :=
  [v / 2 ^ 24 mod 256; v / 2 ^ 16 mod 256; v / 2 ^ 8 mod 256; v mod 256]%N.

(* What is recorded for one sector: format byte, track number, sector number, sectors to the gap; the 16
   byte label; the two checksums; the 512 bytes of data. *)
Record asector : Set := mkAs {
  as_format : N; as_track : N; as_sector : N; as_togap : N;
  as_label : list N; as_header_sum : N; as_data_sum : N; as_bytes : list N }.
Definition as_info (s : asector) : list N := [as_format s; as_track s; as_sector s; as_togap s].

(* The checksum of recorded data: 32 cells hold 16 data bits; the checksum is the exclusive or of all
   such groups of 16, put back in the even-numbered bits of a long. *)
Fixpoint xors (n : nat) (l : list bool) : list bool :=
  match n with
  | O => repeat false 16
  | S k => map (fun p => xorb (fst p) (snd p)) (combine (firstn 16 l) (xors k (skipn 16 l)))
  end.
Definition checksum (l : list bool) : N :=
  bits_val (flat_map (fun b => [false; b]) (xors (length l / 16) l)).
Definition header_sum (s : asector) : N := checksum (block (as_info s) ++ block (as_label s)).
Definition data_sum (s : asector) : N := checksum (block (as_bytes s)).

(* The fields of a sector, in order of recording. *)
Definition sector_bits (s : asector) : list bool :=
  block (as_info s) ++ block (as_label s) ++ block (long (as_header_sum s)) ++
  block (long (as_data_sum s)) ++ block (as_bytes s).
(* A sync mark: the byte A1 recorded with a missing clock. *)
Definition sync_mark : list bool := byte_bits 0x44 ++ byte_bits 0x89.
(* Two zero bytes, two sync marks, the fields; `prev` is the data bit recorded before the sector. *)
Definition sector_cells (prev : bool) (s : asector) : list bool :=
  mfm prev (repeat false 16) ++ sync_mark ++ sync_mark ++ mfm true (sector_bits s).
Fixpoint sectors_cells (prev : bool) (ss : list asector) : list bool :=
  match ss with
  | [] => []
  | s :: t => sector_cells prev s ++ sectors_cells (last (sector_bits s) true) t
  end.
Definition last_bit (prev : bool) (ss : list asector) : bool :=
  fold_left (fun _ s => last (sector_bits s) true) ss prev.
(* A track: some MFM data (a gap), the sectors, and some MFM data again. *)
Definition amiga_track (lead : list bool) (ss : list asector) (tail : list bool) : list bool :=
  mfm false lead ++ sectors_cells (last lead false) ss ++ mfm (last_bit (last lead false) ss) tail.

Definition recorded (s : asector) : Prop :=
  bytes_ok (as_info s) = true /\ length (as_label s) = 16 /\ bytes_ok (as_label s) = true /\
  (as_header_sum s < 2 ^ 32)%N /\ (as_data_sum s < 2 ^ 32)%N /\
  length (as_bytes s) = 512 /\ bytes_ok (as_bytes s) = true.
(* trackdisk.device leaves the label empty *)
Definition plain_label (s : asector) : Prop := as_label s = repeat 0%N 16.
(* The identifier of a recorded sector: two tracks to a cylinder, 512 bytes (size code 2). *)
Definition id_of (s : asector) : DiskChsn := mkChsn (mkChs (as_track s / 2) (as_track s mod 2) (as_sector s))%N 2.
