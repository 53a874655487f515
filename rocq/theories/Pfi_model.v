(* Pfi_model.v - src/file_parsers/pce/pfi.rs: the PCE flux (PFI) loader.  Times are clock ticks of the track's clock (the code multiplies each
   by the clock's period, an f64); the clock is handed to the decoder.  Not modelled: logging, comments, density, RPM (the decoder gets the
   inputs of all earlier tracks, on which the hints given to it depend). *)
From Verif Require Import Base Chs_model BitRing_model Mfm_model Types_model System34_model MetaSector_model BitStream_model DiskImage_model Raw_model Crc32_model Pce_model Hxc_model Flux_model Pll_model.
Local Open Scope nat_scope.

(* pfi.rs 59 *)
Definition PFI_MAXIMUM_CHUNK_SIZE : N := 0x1000000.
(* 83-92, 172-185 *)
Inductive PfiChunkType : Set := PfiFileHeader | PfiText | PfiTrackHeader | PfiIndex | PfiTrackData | PfiEnd | PfiUnknown.
Definition pfi_type (id : list N) : PfiChunkType :=
  if id_eqb id [0x50; 0x46; 0x49; 0x20]%N then PfiFileHeader
  else if id_eqb id [0x54; 0x45; 0x58; 0x54]%N then PfiText
  else if id_eqb id [0x45; 0x4E; 0x44; 0x20]%N then PfiEnd
  else if id_eqb id [0x54; 0x52; 0x41; 0x4B]%N then PfiTrackHeader
  else if id_eqb id [0x49; 0x4E; 0x44; 0x58]%N then PfiIndex
  else if id_eqb id [0x44; 0x41; 0x54; 0x41]%N then PfiTrackData
  else PfiUnknown.
(* 161-212 read_chunk: as Pce_model.read_chunk, with another limit *)
Definition read_chunk_max (max : N) (rest : list N) : outcome (list N * list N * list N) :=
  let! (id, r) := read_exact 4 rest in
  let! (size, _) := read_be32 r in
  if (max <? size)%N then Err FormatParseError
  else
    let! (buffer, r) := read_exact (N.to_nat size + 8) rest in
    let crc_calc := pce_crc buffer in
    let! (crc, r) := read_be32 r in
    if (crc =? crc_calc)%N then Ok (id, skipn 8 buffer, r) else Err CrcError.
Definition pfi_read_chunk (rest : list N) : outcome (PfiChunkType * list N * list N) :=
  let! (id, data, r) := read_chunk_max PFI_MAXIMUM_CHUNK_SIZE rest in Ok (pfi_type id, data, r).

(* 439-489: one code, its first byte b already read *)
Definition pfi_code (b : N) (rest : list N) : outcome (N * list N) :=
  if (b =? 0)%N then Err FormatParseError
  else if (b =? 1)%N then
    let! (x, rest) := read_u8 rest in
    let! (y, rest) := read_u8 rest in
    Ok (N.lor (N.shiftl x 8) y, rest)
  else if (b =? 2)%N then
    let! (x, rest) := read_u8 rest in
    let! (y, rest) := read_u8 rest in
    let! (z, rest) := read_u8 rest in
    Ok (N.lor (N.lor (N.shiftl x 16) (N.shiftl y 8)) z, rest)
  else if (b =? 3)%N then
    let! (x, rest) := read_u8 rest in
    let! (y, rest) := read_u8 rest in
    let! (z, rest) := read_u8 rest in
    let! (w, rest) := read_u8 rest in
    Ok (N.lor (N.lor (N.lor (N.shiftl x 24) (N.shiftl y 16)) (N.shiftl z 8)) w, rest)
  else if (b <? 8)%N then
    let! (x, rest) := read_u8 rest in
    Ok (N.lor (N.shiftl (b - 4) 8) x, rest)
  else Ok (b, rest).
(* 418-493: `next` is next_index, `more` the index times behind it; `cur` holds the transitions of the current revolution, None being the
   revolution that is thrown away; clocks is u32.  Fuel: the number of bytes. *)
Definition pfi_close (done : list Rev) (cur : option (list N)) (time : N) : list Rev :=
  match cur with None => done | Some ts => done ++ [(ts, time)] end.
Fixpoint pfi_loop (fuel : nat) (data : list N) (next : N) (more : list N) (clocks last : N) (done : list Rev) (cur : option (list N)) : outcome (list Rev) :=
  match data, fuel with
  | [], _ => Ok (pfi_close done cur (clocks - last))
  | _ :: _, O => Panic
  | b :: rest, S fuel =>
      if (next <=? clocks)%N then
        match more with
        | [] => Ok (pfi_close done cur (clocks - last))
        | x :: more =>
            let! (t, rest) := pfi_code b rest in
            if (0x100000000 <=? clocks + t)%N then Panic else
            pfi_loop fuel rest x more (clocks + t) clocks (pfi_close done cur (clocks - last)) (Some [t])
        end
      else
        let! (t, rest) := pfi_code b rest in
        if (0x100000000 <=? clocks + t)%N then Panic else
        pfi_loop fuel rest next more (clocks + t) last done (option_map (fun ts => ts ++ [t]) cur)
  end.
(* 395-495 read_track_data *)
Definition pfi_track_data (data index : list N) : outcome (list Rev) :=
  match index with
  | [] => Err FormatParseError
  | x :: more => pfi_loop (length data) data x more 0 0 [] None
  end.

(* what the decoder depends on: the clocks and revolutions of the tracks before, the clock (0 before any track header), position, revolutions *)
Definition PfiDecoder : Set := list (N * list Rev) -> N -> Decoder.
Record PfiLoad : Set := mkPF { pf_img : DiskImage; pf_clock : N; pf_index : list N; pf_cyls : list N; pf_heads : list N; pf_past : list (N * list Rev) }.
(* 299-309: the position of the next track *)
Definition pfi_next_ch (d : DiskImage) (heads : N) : outcome DiskCh :=
  let! chs := track_ch_iter d in
  match rev chs with
  | [] => Ok (mkCh 0 0)
  | last :: _ => next_track_unchecked last heads
  end.
Definition pfi_geom (s : PfiLoad) : DiskCh := mkCh (as_u16 (N.of_nat (length (pf_cyls s)))) (as_u8 (N.of_nat (length (pf_heads s)))).
(* 265-284 *)
Fixpoint pfi_be32s (data : list N) : list N :=
  match data with
  | a :: b :: c :: d :: t => (((a * 256 + b) * 256 + c) * 256 + d)%N :: pfi_be32s t
  | _ => []
  end.
(* 241-372: one chunk *)
Definition pfi_step (dec : PfiDecoder) (s : PfiLoad) (typ : PfiChunkType) (data : list N) : outcome PfiLoad :=
  match typ with
  | PfiTrackHeader =>
      match pfi_be32s (firstn 12 data) with
      | [cyl; head; clock] =>
          Ok (mkPF (pf_img s) clock (pf_index s) (set_insert (as_u16 cyl) (pf_cyls s)) (set_insert (as_u8 head) (pf_heads s)) (pf_past s))
      | _ => Err FormatParseError
      end
  | PfiIndex => Ok (mkPF (pf_img s) (pf_clock s) (pfi_be32s data) (pf_cyls s) (pf_heads s) (pf_past s))
  | PfiTrackData =>
      let! revs := pfi_track_data data (pf_index s) in
      let! ch := pfi_next_ch (pf_img s) (as_u8 (N.of_nat (length (pf_heads s)))) in
      let! d := flux_add (dec (pf_past s) (pf_clock s)) (pf_img s) ch revs in
      Ok (mkPF (with_geom d (pfi_geom s)) (pf_clock s) (pf_index s) (pf_cyls s) (pf_heads s) (pf_past s ++ [(pf_clock s, revs)]))
  | _ => Ok s
  end.
Fixpoint pfi_chunks (dec : PfiDecoder) (fuel : nat) (s : PfiLoad) (typ : PfiChunkType) (data rest : list N) : outcome PfiLoad :=
  match typ with
  | PfiEnd => Ok s
  | _ =>
      let! s := pfi_step dec s typ data in
      let! (typ, data, rest) := pfi_read_chunk rest in
      match fuel with O => Panic | S fuel => pfi_chunks dec fuel s typ data rest end
  end.
(* 214-393 load_image *)
Definition pfi_load_image (dec : PfiDecoder) (d : DiskImage) (file : list N) : outcome DiskImage :=
  let! (typ, data, rest) := pfi_read_chunk file in
  match typ with
  | PfiFileHeader =>
      if length data <? 4 then Err FormatParseError
      else
        let! s := pfi_chunks dec (length file) (mkPF d 0 [] [] [] []) typ data rest in
        Ok (with_geom (pf_img s) (pfi_geom s))
  | _ => Err UnknownFormat
  end.
