(* Td0_spec.v - the contents of TeleDisk files.  Uses no code of Td0_model.v except the checksum td0_crc, which is characterised
   by C56_checksum. *)
From Verif Require Import Base Chs_model Types_model MetaSector_model MetaSector_spec BitStream_model DiskImage_model DiskImage_spec Td0_model.
Import ListNotations.

(* the data of a sector, written out; as pairs of bytes with a repeat count; or as literal blocks and repeated patterns *)
Record Pair : Set := mkPair { pr_count : N; pr_a : N; pr_b : N }.
Inductive Run : Set := Literal (bytes : list N) | Repeated (times : N) (pattern : list N).
Inductive Data : Set := Plain (bytes : list N) | Pairs (l : list Pair) | Runs (l : list Run).
(* the bytes that stand in the file for them *)
Definition le16_bytes (x : N) : list N := [(x mod 256)%N; (x / 256)%N].
Definition pair_bytes (p : Pair) : list N := le16_bytes (pr_count p) ++ [pr_a p; pr_b p].
Definition run_bytes (r : Run) : list N :=
  match r with
  | Literal b => [0%N; N.of_nat (length b)] ++ b
  | Repeated n p => [(N.of_nat (length p) / 2)%N; n] ++ p
  end.
Definition data_bytes (d : Data) : list N :=
  match d with
  | Plain b => 0%N :: b
  | Pairs l => 1%N :: flat_map pair_bytes l
  | Runs l => 2%N :: flat_map run_bytes l
  end.
(* the bytes that they stand for: each pair is taken second byte first *)
Definition pair_data (p : Pair) : list N := concat (repeat [pr_b p; pr_a p] (N.to_nat (pr_count p))).
Definition run_data (r : Run) : list N :=
  match r with Literal b => b | Repeated n p => concat (repeat p (N.to_nat n)) end.
Definition data_of (d : Data) : list N :=
  match d with Plain b => b | Pairs l => flat_map pair_data l | Runs l => flat_map run_data l end.
(* well-formed: the data fill the sector exactly, and every entry starts before its end *)
Definition fills {A} (size : nat) (f : A -> list N) (l : list A) : Prop :=
  length (flat_map f l) = size /\ forall l1 e l2, l = l1 ++ e :: l2 -> length (flat_map f l1) < size.
Definition valid_run (r : Run) : Prop :=
  match r with
  | Literal b => length b < 256
  | Repeated n p => (n < 256)%N /\ p <> [] /\ exists k, k < 256 /\ length p = 2 * k
  end.
Definition valid_data (size : nat) (d : Data) : Prop :=
  match d with
  | Plain b => length b = size
  | Pairs l => fills size pair_data l /\ Forall (fun p => pr_count p < 65536)%N l
  | Runs l => fills size run_data l /\ Forall valid_run l
  end.

(* a sector: its id, size code, flags and checksum; with data exactly if neither flag 0x10 (skipped) nor 0x20 (no data) is set.
   The length field before the data (sd_len) is not interpreted. *)
Record SectorDesc : Set := mkSD { sd_cyl : N; sd_head : N; sd_num : N; sd_size : N; sd_flags : N; sd_crc : N; sd_len : N * N; sd_data : Data }.
Definition has_data (s : SectorDesc) : bool := negb (N.testbit (sd_flags s) 4) && negb (N.testbit (sd_flags s) 5).
Definition sector_bytes (s : SectorDesc) : list N :=
  [sd_cyl s; sd_head s; sd_num s; sd_size s; sd_flags s; sd_crc s] ++
  if has_data s then [fst (sd_len s); snd (sd_len s)] ++ data_bytes (sd_data s) else [].
(* 128, 256, ... 8192 bytes; the size code is a shift count modulo 64, capped at 8192 bytes, and the largest shift to 0 *)
Definition size_code (code : N) : N := (let c := code mod 64 in if c <? 6 then c else if c <? 57 then 6 else 0)%N.
Definition size_of (code : N) : nat := if (code mod 64 <? 57)%N then N.to_nat (128 * 2 ^ size_code code) else 0.
Definition valid_sector (s : SectorDesc) : Prop :=
  has_data s = true -> valid_data (size_of (sd_size s)) (sd_data s) /\ sd_crc s = (td0_crc (data_of (sd_data s)) 0 mod 256)%N.
(* a track *)
Record TrackDesc : Set := mkTD { td_cyl : N; td_head : N; td_sectors : list SectorDesc }.
Definition track_header (t : TrackDesc) : list N := [N.of_nat (length (td_sectors t)); td_cyl t; td_head t].
Definition track_bytes (t : TrackDesc) : list N :=
  track_header t ++ [(td0_crc (track_header t) 0 mod 256)%N] ++ flat_map sector_bytes (td_sectors t).
Record valid_track (t : TrackDesc) : Prop := mkVT {
  vt_ct : length (td_sectors t) < 255; vt_head : (td_head t < 2)%N; vt_sectors : Forall valid_sector (td_sectors t) }.
(* what ends the tracks: a header with count 255, or less than a header *)
Definition ends (tail : list N) : Prop := length tail < 4 \/ exists r, tail = 255%N :: r.

(* what is loaded: the sectors that have data *)
Definition sector_params (s : SectorDesc) : AddSectorParams :=
  mkAddSector (mkChsn (mkChs (sd_cyl s) (sd_head s) (sd_num s)) (size_code (sd_size s))) (data_of (sd_data s)) None None
    (mkAttr false (N.testbit (sd_flags s) 1) (N.testbit (sd_flags s) 2) false) false.
Definition track_of (t : TrackDesc) : DTrack :=
  TMeta (mkMST (mkCh (td_cyl t) (td_head t)) (map (fun s => sector_of (sector_params s)) (filter has_data (td_sectors t)))).
Definition heads_of (ts : list TrackDesc) : Heads :=
  (map track_of (filter (fun t => (td_head t =? 0)%N) ts), map track_of (filter (fun t => (td_head t =? 1)%N) ts)).
Definition cylinders_of (ts : list TrackDesc) : list N := nodup N.eq_dec (map td_cyl ts).

(* the file header *)
Record HeaderDesc : Set := mkHD {
  hd_packed : bool; hd_seq : N; hd_check : N; hd_version : N; hd_rate : N; hd_drive : N; hd_stepping : N; hd_alloc : N; hd_heads : N }.
Definition header_bytes (h : HeaderDesc) : list N :=
  let b := (if hd_packed h then [0x74; 0x64] else [0x54; 0x44])%N ++
           [hd_seq h; hd_check h; hd_version h; hd_rate h; hd_drive h; hd_stepping h; hd_alloc h; hd_heads h] in
  b ++ le16_bytes (td0_crc b 0).
(* the comment, present if bit 7 of the stepping byte is set: checksum and date are not interpreted *)
Record CommentDesc : Set := mkCD { cd_crc : N * N; cd_text : list N; cd_date : list N }.
Definition comment_bytes (c : CommentDesc) : list N :=
  [fst (cd_crc c); snd (cd_crc c)] ++ le16_bytes (N.of_nat (length (cd_text c))) ++ cd_date c ++ cd_text c.
Definition has_comment (h : HeaderDesc) : bool := N.testbit (hd_stepping h) 7.
(* well-formed UTF-8 (Unicode, table 3-7) *)
Definition continuation (x : N) : Prop := (0x80 <= x <= 0xBF)%N.
Inductive utf8 : list N -> Prop :=
| utf8_nil : utf8 []
| utf8_1 b l : (b < 0x80)%N -> utf8 l -> utf8 (b :: l)
| utf8_2 b x l : (0xC2 <= b <= 0xDF)%N -> continuation x -> utf8 l -> utf8 (b :: x :: l)
| utf8_3 b x y l : (0xE0 <= b <= 0xEF)%N -> continuation x -> continuation y -> (b = 0xE0 -> 0xA0 <= x)%N -> (b = 0xED -> x <= 0x9F)%N ->
    utf8 l -> utf8 (b :: x :: y :: l)
| utf8_4 b x y z l : (0xF0 <= b <= 0xF4)%N -> continuation x -> continuation y -> continuation z -> (b = 0xF0 -> 0x90 <= x)%N -> (b = 0xF4 -> x <= 0x8F)%N ->
    utf8 l -> utf8 (b :: x :: y :: z :: l).
Record valid_comment (c : CommentDesc) : Prop := mkVC {
  vc_len : (N.of_nat (length (cd_text c)) < 65536)%N; vc_date : length (cd_date c) = 6; vc_utf8 : utf8 (cd_text c) }.
(* the file, decompressed if it is compressed *)
Definition expanded (x1 x2 : list N -> option (list N * N)) (h : HeaderDesc) (file : list N) : option (list N * N) :=
  if hd_packed h then (if (hd_version h <? 20)%N then x1 file else x2 file) else Some (file, N.of_nat (length file)).
(* a file with that header, whose comment, if any, is well-formed and within the reported length *)
Record td0_file (x1 x2 : list N -> option (list N * N)) (h : HeaderDesc) (cm : CommentDesc) (rest file : list N) : Prop := mkTF {
  tf_header : firstn 12 file = header_bytes h;
  tf_content : exists buf total, expanded x1 x2 h file = Some (buf, total) /\ bytes_ok buf = true /\
    skipn 12 buf = (if has_comment h then comment_bytes cm else []) ++ rest /\
    (has_comment h = true -> valid_comment cm /\ (N.of_nat (length (cd_text cm)) <= total - 10)%N) }.
