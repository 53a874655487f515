(* Td0_model.v - src/file_parsers/td0.rs: the TeleDisk loader.
   A reader is the list of the bytes not yet read.  The decompressors are in Lzw_model.v and Lzhuf_model.v: each gives the contents
   of the decompression buffer and the length it reports.  Not modelled: the descriptor other than its geometry
   (so the data rate is not modelled); logging (with trace logging enabled, td0.rs 419 computes `len - 1`, which panics for
   length 0; logging is taken to be off). *)
From Verif Require Import Base Chs_model Types_model MetaSector_model BitStream_model DiskImage_model Raw_model Imd_model.
From Verif Require Lzhuf_model Lzw_model.
Import ListNotations.

(* td0.rs 174-178: one round of the inner loop of td0_crc on a u16 *)
Definition td0_round (crc : N) : N :=
  N.lxor (as_u16 (N.shiftl crc 1)) (if negb (N.land crc 0x8000 =? 0)%N then 0xA097 else 0).
Definition td0_byte (crc byte : N) : N := N.iter 8 td0_round (N.lxor crc (N.shiftl byte 8)).
(* 170-181 td0_crc *)
Definition td0_crc (data : list N) (input_crc : N) : N := fold_left td0_byte data input_crc.

(* 516-526: `count` copies of the pair, the second byte first.  `out` is output[0..decoded_len] *)
Fixpoint td0_put_pairs (n size : nat) (a b : N) (out : list N) : outcome (list N) :=
  match n with
  | O => Ok out
  | S n => if length out <? size - 1 then td0_put_pairs n size a b (out ++ [b; a]) else Err FormatParseError
  end.
(* 504-529 td0_decompress_repeated_data.  The output buffer starts as zeros.  Every entry takes four bytes of the file. *)
Fixpoint td0_pairs (fuel size : nat) (out rest : list N) : outcome (list N * list N) :=
  if length out <? size then
    match fuel, rest with
    | S fuel, c0 :: c1 :: a :: b :: rest =>
        let! out := td0_put_pairs (N.to_nat (c0 + 256 * c1)) size a b out in
        td0_pairs fuel size out rest
    | _, _ => Err IoError
    end
  else Ok (out ++ repeat 0%N (size - length out), rest).
(* 558-573: `n` copies of the pattern; slicing past the end of the output panics *)
Fixpoint td0_put_runs (n size : nat) (pat out : list N) : outcome (list N) :=
  match n with
  | O => Ok out
  | S n => if length out <? size
           then if size <? length out + length pat then Panic else td0_put_runs n size pat (out ++ pat)
           else Err FormatParseError
  end.
(* 531-586 td0_decompress_rle_data.  Every entry takes at least two bytes of the file. *)
Fixpoint td0_rle (fuel size : nat) (out rest : list N) : outcome (list N * list N) :=
  if length out <? size then
    match fuel, rest with
    | S fuel, code :: n :: rest =>
        if (code =? 0)%N then
          if size <? length out + N.to_nat n then Panic
          else let! (block, rest) := read_exact (N.to_nat n) rest in td0_rle fuel size (out ++ block) rest
        else
          let! (pat, rest) := read_exact (2 * N.to_nat code) rest in
          let! out := td0_put_runs (N.to_nat n) size pat out in
          td0_rle fuel size out rest
    | _, _ => Err IoError
    end
  else Ok (out, rest).
(* 425-447: the data record of a sector of `size` bytes, from its encoding byte on *)
Definition td0_data (encoding : N) (size : nat) (rest : list N) : outcome (list N * list N) :=
  match encoding with
  | 0%N => read_exact size rest
  | 1%N => td0_pairs (S (length rest)) size [] rest
  | 2%N => td0_rle (S (length rest)) size [] rest
  | _ => Err ImageCorruptError
  end.
(* 394-483: one sector *)
Definition td0_sector (m : MetaSectorTrack) (rest : list N) : outcome (MetaSectorTrack * list N) :=
  match rest with
  | c :: h :: s :: z :: flags :: crc :: rest =>
      if (N.land flags 0x30 =? 0)%N then
        match rest with
        | _ :: _ :: encoding :: rest =>
            let! (data, rest) := td0_data encoding (N.to_nat (n_to_bytes z)) rest in
            if (crc =? as_u8 (td0_crc data 0))%N then
              let! m := mt_add_sector m (mkAddSector (mkChsn (mkChs c h s) (bytes_to_n (N.of_nat (length data)))) data None None
                                           (mkAttr false (negb (N.land flags 2 =? 0)%N) (negb (N.land flags 4 =? 0)%N) false) false) in
              Ok (m, rest)
            else Err ImageCorruptError
        | _ => Err IoError
        end
      else Ok (m, rest)
  | _ => Err IoError
  end.
Fixpoint td0_sectors (n : nat) (m : MetaSectorTrack) (rest : list N) : outcome (MetaSectorTrack * list N) :=
  match n with
  | O => Ok (m, rest)
  | S n => let! (m, rest) := td0_sector m rest in td0_sectors n m rest
  end.
(* 359-488: the loop over the tracks.  calc_crc re-reads the three bytes of the header just read.  `cyls` is cylinder_set. *)
Fixpoint td0_loop (fuel : nat) (d : DiskImage) (cyls : list N) (rest : list N) : outcome (DiskImage * list N) :=
  match fuel, rest with
  | S fuel, n :: c :: h :: crc :: rest =>
      if (n =? 0xFF)%N then Ok (d, cyls)
      else if negb (crc =? as_u8 (td0_crc [n; c; h] 0))%N then Err ImageCorruptError
      else
        let (d, r) := add_track_metasector d (mkCh c h) in
        let! ti := r in
        let! tr := oindex (di_pool d) ti in
        match tr with
        | TMeta m =>
            let! (m, rest) := td0_sectors (N.to_nat n) m rest in
            td0_loop fuel (with_pool d (upd (di_pool d) ti (TMeta m))) (set_add c cyls) rest
        | _ => Panic
        end
  | _, _ => Ok (d, cyls)
  end.
(* core::str::from_utf8: the bytes are well-formed UTF-8 *)
Definition in_range (lo hi b : N) : bool := (lo <=? b)%N && (b <=? hi)%N.
Fixpoint utf8_ok (fuel : nat) (l : list N) : bool :=
  match fuel, l with
  | _, [] => true
  | O, _ => false
  | S f, b :: l =>
      if (b <? 0x80)%N then utf8_ok f l
      else if in_range 0xC2 0xDF b then
        match l with x :: l => in_range 0x80 0xBF x && utf8_ok f l | _ => false end
      else if in_range 0xE0 0xEF b then
        match l with
        | x :: y :: l => in_range (if (b =? 0xE0)%N then 0xA0 else 0x80) (if (b =? 0xED)%N then 0x9F else 0xBF) x
                         && in_range 0x80 0xBF y && utf8_ok f l
        | _ => false
        end
      else if in_range 0xF0 0xF4 b then
        match l with
        | x :: y :: z :: l => in_range (if (b =? 0xF0)%N then 0x90 else 0x80) (if (b =? 0xF4)%N then 0x8F else 0xBF) x
                              && in_range 0x80 0xBF y && in_range 0x80 0xBF z && utf8_ok f l
        | _ => false
        end
      else false
  end.
(* 316-354: the comment block.  `buf` is the whole (decompressed) file, read from offset 12; total is its reported length.
   A wrong CRC is only logged, but the bytes it covers must exist. *)
Definition td0_comment (buf : list N) (total : N) : outcome (list N) :=
  match skipn 12 buf with
  | _ :: _ :: l0 :: l1 :: _ :: _ :: _ :: _ :: _ :: _ :: rest =>
      let len := N.to_nat (l0 + 256 * l1) in
      let! _ := read_exact (8 + len) (skipn 14 buf) in
      if (total - 10 <? N.of_nat len)%N then Err ImageCorruptError
      else
        let! (text, rest) := read_exact len rest in
        if utf8_ok (length text) (map (fun b => if (b =? 0)%N then 10%N else b) text) then Ok rest else Err FormatParseError
  | _ => Err IoError
  end.
(* 232-502 load_image, with expand1 and expand2 for lzw::expand and lzhuf::expand with the TeleDisk options. *)
Definition td0_load (expand1 expand2 : list N -> outcome (list N * N)) (d : DiskImage) (file : list N) : outcome DiskImage :=
  match file with
  | i0 :: i1 :: _ :: _ :: version :: _ :: _ :: stepping :: _ :: heads :: k0 :: k1 :: _ =>
      let plain := (i0 =? 0x54)%N && (i1 =? 0x44)%N in
      let packed := (i0 =? 0x74)%N && (i1 =? 0x64)%N in
      if negb (plain || packed) then Err UnknownFormat
      else if negb (k0 + 256 * k1 =? td0_crc (firstn 10 file) 0)%N then Err ImageCorruptError
      else
        let! (buf, total) :=
          if packed then
            match (if version / 10 <? 2 then expand1 file else expand2 file)%N with Ok r => Ok r | Err _ => Err ImageCorruptError | Panic => Panic end
          else Ok (file, N.of_nat (length file)) in
        let! rest := if negb (N.land stepping 0x80 =? 0)%N then td0_comment buf total else Ok (skipn 12 buf) in
        let! (d, cyls) := td0_loop (S (length rest)) d [] rest in
        Ok (with_geom d (mkCh (as_u16 (N.of_nat (length cyls))) heads))
  | _ => Err UnknownFormat
  end.
(* 232-502 load_image *)
Definition td0_load_image (d : DiskImage) (file : list N) : outcome DiskImage := td0_load Lzw_model.lzw_expand Lzhuf_model.lzhuf_expand d file.
