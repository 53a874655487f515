(* Pce_model.v - src/file_parsers/pce: the chunk layer shared by the PRI, PSI and PFI parsers, and the PRI (PCE bitstream)
   loader and writer.
   A file is the list of its bytes; a reader is the list of the bytes not yet read.  `u32::from(TrackDataRate)` and
   `TrackDataRate::from(u32)` (f64 arithmetic, types/enums.rs 247-275) are not modelled: the rate of a track is its u32 value,
   kept in a list beside the image (one entry per track of the pool) because the track model has no rate.
   Not modelled: logging, the descriptor other than its geometry, loading callbacks. *)
From Verif Require Import Base Chs_model BitRing_model Mfm_model Types_model System34_model MetaSector_model BitStream_model
  DiskImage_model Format_model Raw_model Crc32_model.
Import ListNotations.

(* #[brw(big)] integers *)
Definition be32 (x : N) : list N :=
  [(x / 16777216) mod 256; (x / 65536) mod 256; (x / 256) mod 256; x mod 256]%N.
Definition read_be32 (rest : list N) : outcome (N * list N) :=
  match rest with
  | a :: b :: c :: d :: t => Ok (((a * 256 + b) * 256 + c) * 256 + d, t)%N
  | _ => Err IoError
  end.
Definition MAXIMUM_CHUNK_SIZE : N := 0x100000.

(* The chunk layer.  pri.rs 203-255, psi.rs 229-284, pfi.rs 161-212 (the copies differ in the table of ids; that of pfi.rs also in the limit, see Pfi_model.v):
   the chunk id, its data, and the reader after the chunk.  The header is read, then the reader seeks back to the
   chunk start and reads header and data into one buffer. *)
Definition read_chunk (rest : list N) : outcome (list N * list N * list N) :=
  let! (id, r) := read_exact 4 rest in
  let! (size, _) := read_be32 r in
  if (MAXIMUM_CHUNK_SIZE <? size)%N then Err FormatParseError
  else
    let! (buffer, r) := read_exact (N.to_nat size + 8) rest in
    let crc_calc := pce_crc buffer in
    let! (crc, r) := read_be32 r in
    if (crc =? crc_calc)%N then Ok (id, skipn 8 buffer, r) else Err CrcError.
(* pri.rs 257-304 write_chunk, 339-378 write_chunk_raw, 307-336 write_text: the bytes written *)
Definition write_chunk (id : list N) (data : list N) : list N :=
  let buf := id ++ be32 (as_u32 (N.of_nat (length data))) ++ data in
  buf ++ be32 (pce_crc buf).

(* PRI: pri.rs 126-136 and the tables at 216-228, 268-277, 347-356 *)
Inductive PriChunkType : Set :=
| PriFileHeader | PriText | PriTrackHeader | PriTrackData | PriWeakMask | PriAlternateBitClock | PriEnd | PriUnknown.
Definition pri_id (t : PriChunkType) : list N :=
  match t with
  | PriFileHeader => [0x50; 0x52; 0x49; 0x20]          (* "PRI " *)
  | PriText => [0x54; 0x45; 0x58; 0x54]                (* "TEXT" *)
  | PriEnd => [0x45; 0x4E; 0x44; 0x20]                 (* "END " *)
  | PriTrackHeader => [0x54; 0x52; 0x41; 0x4B]         (* "TRAK" *)
  | PriTrackData => [0x44; 0x41; 0x54; 0x41]           (* "DATA" *)
  | PriWeakMask => [0x57; 0x45; 0x41; 0x4B]            (* "WEAK" *)
  | PriAlternateBitClock => [0x42; 0x43; 0x4C; 0x4B]   (* "BCLK" *)
  | PriUnknown => [0x55; 0x4E; 0x4B; 0x4E]             (* "UNKN" *)
  end%N.
Definition id_eqb (a b : list N) : bool := if list_eq_dec N.eq_dec a b then true else false.
Definition pri_type (id : list N) : PriChunkType :=
  if id_eqb id (pri_id PriFileHeader) then PriFileHeader
  else if id_eqb id (pri_id PriText) then PriText
  else if id_eqb id (pri_id PriEnd) then PriEnd
  else if id_eqb id (pri_id PriTrackHeader) then PriTrackHeader
  else if id_eqb id (pri_id PriTrackData) then PriTrackData
  else if id_eqb id (pri_id PriWeakMask) then PriWeakMask
  else if id_eqb id (pri_id PriAlternateBitClock) then PriAlternateBitClock
  else PriUnknown.
Definition pri_read_chunk (rest : list N) : outcome (PriChunkType * list N * list N) :=
  let! (id, data, r) := read_chunk rest in Ok (pri_type id, data, r).
Definition pri_write_chunk (t : PriChunkType) (data : list N) : list N := write_chunk (pri_id t) data.

(* ---------------------------------------------------------------------------- writer ---------------- *)
(* pri.rs 604-618: the 32-bit mask starting at a weak bit, t being the bits after it *)
Definition weak_entry_mask (t : list bool) : N :=
  fold_left (fun m '(pos, b) => N.lor m (N.shiftl (b2N b) (N.of_nat (31 - pos)))) (combine (seq 1 31) t) (N.shiftl 1 31).
(* 600-628: one iterator shared by the two loops; `off` is bit_offset before the next bit.  Fuel: the number of bits. *)
Fixpoint weak_entries (fuel : nat) (off : nat) (l : list bool) : list (nat * N) :=
  match fuel, l with
  | S fuel, false :: t => weak_entries fuel (off + 1) t
  | S fuel, true :: t =>
      (off + 1, weak_entry_mask t) :: weak_entries fuel (off + 1 + length (firstn 31 t)) (skipn 31 t)
  | _, _ => []
  end.
Definition weak_table (mask : list bool) : list N :=
  flat_map (fun '(off, m) => be32 (as_u32 (N.of_nat off)) ++ be32 m) (weak_entries (length mask) 0 mask).
(* 571-635: one track *)
Definition pri_write_track (rate : N) (t : DTrack) : outcome (list N) :=
  match t with
  | TBit t =>
      let bits := mfm_data (bt_data t) in
      let mask := r_bits (m_weak (bt_data t)) in
      Ok (pri_write_chunk PriTrackHeader
            (be32 (ch_c (bt_ch t)) ++ be32 (ch_h (bt_ch t)) ++ be32 (as_u32 (N.of_nat (length bits))) ++ be32 rate)
          ++ pri_write_chunk PriTrackData (to_bytes bits)
          ++ (if existsb (fun b => b) mask then pri_write_chunk PriWeakMask (weak_table mask) else []))
  | _ => Panic
  end.
(* 76-85, 638-641: the END chunk with its constant CRC *)
Definition pri_footer : list N := pri_id PriEnd ++ be32 0 ++ be32 0x3d64af78.
(* 546-644 save_image.  `rates`: the u32 data rate of every track of the pool; `comment`: the metadata key "comment". *)
Definition pri_save (d : DiskImage) (rates : list N) (comment : option (list N)) : outcome (list N) :=
  if (1 <? length (di_res d)) || negb (res_mem RBitStream (di_res d)) then Err UnsupportedFormat
  else
    let header := pri_write_chunk PriFileHeader [0; 0; 0; 0]%N in
    let! text := match comment with
                 | Some c => if 1000 <? length c then Panic else Ok (pri_write_chunk PriText c)
                 | None => Ok []
                 end in
    let! body := ofold (fun out ti =>
                          match nth_error (di_pool d) ti with
                          | Some t => let! b := pri_write_track (nth ti rates 0%N) t in Ok (out ++ b)
                          | None => Ok out
                          end) (track_idx_iter d) [] in
    Ok (header ++ text ++ body ++ pri_footer).

(* ---------------------------------------------------------------------------- loader ---------------- *)
(* 401-409: the local variables of load_image; pl_rates is the data rate of every track added *)
Record PriLoad : Type := mkPL {
  pl_img : DiskImage; pl_ch : DiskCh; pl_clock : N; pl_default_clock : N; pl_bit_length : N;
  pl_cyls : list N; pl_heads : list N; pl_rate : option N; pl_rates : list N }.
Definition set_insert (x : N) (s : list N) : list N := if existsb (N.eqb x) s then s else s ++ [x].
(* bitstream.rs 1315-1326 write_weak_mask_u32 *)
Fixpoint weak_u32_loop (is : list nat) (mask : N) (off : nat) (l : list bool) : list bool :=
  match is with
  | [] => l
  | i :: is =>
      if negb (N.land mask (N.shiftr 0x80000000 (N.of_nat i)) =? 0)%N
      then if length l <=? i + off then l else weak_u32_loop is mask off (upd l (i + off) true)
      else weak_u32_loop is mask off l
  end.
Definition write_weak_mask_u32 (t : BitTrack) (mask : N) (off : nat) : BitTrack :=
  let r := m_weak (bt_data t) in
  with_data t (with_weak (bt_data t) (mkRing (weak_u32_loop (seq 0 32) mask off (r_bits r)) (r_wrap r) (r_cursor r) (r_wrapv r))).
(* 496-506: the entries of a WEAK chunk *)
Fixpoint weak_load (k : nat) (data : list N) (t : BitTrack) : outcome BitTrack :=
  match k with
  | O => Ok t
  | S k =>
      match (let! (off, r) := read_be32 data in let! (m, r) := read_be32 r in Ok (off, m, r)) with
      | Ok (off, m, r) => weak_load k r (write_weak_mask_u32 t m (N.to_nat off))
      | _ => Err FormatParseError
      end
  end.
(* 412-524: one chunk.  `scale new def` is the f64 expression `((new / 65535) * def) as u32`. *)
Definition parse_err {A} (x : outcome A) : outcome A := match x with Err _ => Err FormatParseError | _ => x end.
Definition pri_step (rnd : Rnd) (scale : N -> N -> N) (s : PriLoad) (typ : PriChunkType) (data : list N) : outcome PriLoad :=
  match typ with
  | PriTrackHeader =>
      let! (cyl, head, len, clock) :=
        parse_err (let! (cyl, r) := read_be32 data in let! (head, r) := read_be32 r in
                   let! (len, r) := read_be32 r in let! (clock, r) := read_be32 r in Ok (cyl, head, len, clock)) in
      Ok (mkPL (pl_img s) (mkCh (as_u16 cyl) (as_u8 head)) (pl_clock s) clock len
               (set_insert (as_u16 cyl) (pl_cyls s)) (set_insert (as_u8 head) (pl_heads s)) (pl_rate s) (pl_rates s))
  | PriAlternateBitClock =>
      let! (_, new) := parse_err (let! (off, r) := read_be32 data in let! (new, r) := read_be32 r in Ok (off, new)) in
      let clock := if (new =? 0)%N then pl_default_clock s else scale new (pl_default_clock s) in
      Ok (mkPL (pl_img s) (pl_ch s) clock (pl_default_clock s) (pl_bit_length s) (pl_cyls s) (pl_heads s) (pl_rate s) (pl_rates s))
  | PriTrackData =>
      let rate := match pl_rate s with Some r => r | None => pl_clock s end in
      let (d, r) := add_track_bitstream rnd (pl_img s) (pl_ch s) data None (Some (N.to_nat (pl_bit_length s))) false in
      let! _ := r in
      Ok (mkPL d (pl_ch s) (pl_clock s) (pl_default_clock s) (pl_bit_length s) (pl_cyls s) (pl_heads s) (Some rate)
               (pl_rates s ++ [pl_clock s]))
  | PriWeakMask =>
      if negb (length data mod 8 =? 0) then Err FormatParseError
      else
        let! m := head_map (pl_img s) (ch_h (pl_ch s)) in
        match nth_error m (N.to_nat (ch_c (pl_ch s))) with
        | None => Err FormatParseError
        | Some ti =>
            match nth_error (di_pool (pl_img s)) ti with
            | Some (TBit t) =>
                let! t := weak_load (length data / 8) data t in
                Ok (mkPL (with_pool (pl_img s) (upd (di_pool (pl_img s)) ti (TBit t))) (pl_ch s) (pl_clock s) (pl_default_clock s)
                         (pl_bit_length s) (pl_cyls s) (pl_heads s) (pl_rate s) (pl_rates s))
            | _ => Err FormatParseError
            end
        end
  | _ => Ok s
  end.
(* 411-527: the chunk loop.  Every chunk takes at least twelve bytes, so a fuel of the length of the file is never used up. *)
Fixpoint pri_loop (rnd : Rnd) (scale : N -> N -> N) (fuel : nat) (s : PriLoad) (typ : PriChunkType) (data rest : list N) : outcome PriLoad :=
  match typ with
  | PriEnd => Ok s
  | _ =>
      let! s := pri_step rnd scale s typ data in
      let! (typ, data, rest) := pri_read_chunk rest in
      match fuel with
      | O => Panic
      | S fuel => pri_loop rnd scale fuel s typ data rest
      end
  end.
(* 380-544 load_image: the image and the data rates of the tracks *)
Definition pri_load_image (rnd : Rnd) (scale : N -> N -> N) (d : DiskImage) (file : list N) : outcome (DiskImage * list N) :=
  let! (typ, data, rest) := pri_read_chunk file in
  match typ with
  | PriFileHeader =>
      if length data <? 4 then Err FormatParseError
      else
        let! s := pri_loop rnd scale (length file) (mkPL d (mkCh 0 0) 0 0 0 [] [] None []) typ data rest in
        match pl_rate s with
        | None => Panic     (* disk_data_rate.unwrap() *)
        | Some _ =>
            Ok (with_geom (pl_img s) (mkCh (as_u16 (N.of_nat (length (pl_cyls s)))) (as_u8 (N.of_nat (length (pl_heads s))))), pl_rates s)
        end
  | _ => Err UnknownFormat
  end.
(* DiskImage::load for an image detected as PRI *)
Definition pri_load (sha1 : list N -> N) (rnd : Rnd) (scale : N -> N -> N) (file : list N) : outcome (DiskImage * option BootSector * list N) :=
  let! (d, rates) := pri_load_image rnd scale di_default file in
  let! (d, boot) := post_load_process sha1 rnd d in Ok (d, boot, rates).
