(* Scp_model.v - src/file_parsers/scp.rs: the SuperCard Pro loader.  A file is the list of its bytes.  Times are nanoseconds.
   Not modelled: logging, data rate, RPM, write protection; the allocation of the (up to 8 GB) buffer before flux data is read. *)
From Verif Require Import Base Chs_model BitRing_model Mfm_model Types_model System34_model MetaSector_model BitStream_model DiskImage_model Raw_model F86_model Tc_model Flux_model Pll_model.
Local Open Scope nat_scope.

(* scp.rs 542-563 convert_flux_data, in ticks of the capture resolution *)
Fixpoint scp_convert (acc : N) (data : list N) : list N :=
  match data with
  | [] => []
  | d :: data => if (d =? 0)%N then scp_convert (acc + 65535) data else (d + acc)%N :: scp_convert 0 data
  end.
(* 143-170 scp_disk_type: None for unknown manufacturers *)
Definition scp_known_type (t : N) : bool := existsb (N.eqb (N.land t 0xF0)) [0x00; 0x10; 0x20; 0x30; 0x40; 0x50; 0x60; 0x70; 0x80; 0xE0; 0xF0]%N.
(* 378-399: the rest of the offset table, n entries *)
Fixpoint scp_offsets (n : nat) (rest : list N) (last size : N) : outcome (list N) :=
  match n with
  | O => Ok []
  | S n =>
      let! (o, rest) := read_le32 rest in
      if (o =? 0)%N then Ok []
      else if (o <=? last)%N || (size <=? o)%N then Err FormatParseError
      else let! os := scp_offsets n rest o size in Ok (o :: os)
  end.
(* 433-438: the revolutions' headers: index time, length, offset *)
Fixpoint scp_rev_headers (n : nat) (rest : list N) : outcome (list (N * N * N)) :=
  match n with
  | O => Ok []
  | S n =>
      let! (t, rest) := read_le32 rest in
      let! (l, rest) := read_le32 rest in
      let! (o, rest) := read_le32 rest in
      let! hs := scp_rev_headers n rest in
      Ok ((t, l, o) :: hs)
  end.
(* 443-482: the revolutions; index_time * 25 is u32 arithmetic *)
Fixpoint scp_revs (file : list N) (off res : N) (hs : list (N * N * N)) : outcome (list Rev) :=
  match hs with
  | [] => Ok []
  | (t, l, o) :: hs =>
      if (0x100000000 <=? t * 25)%N then Panic else
      let! (data, _) := read_table read_be16 (N.to_nat l) (skipn (N.to_nat (off + o)) file) in
      let! rs := scp_revs file off res hs in
      Ok ((map (fun k => k * res)%N (scp_convert 0 data), t * 25)%N :: rs)
  end.
(* 411-503: the tracks; `st` is the state of the iterator over cylinders and heads *)
Fixpoint scp_tracks (dec : Decoder) (file : list N) (geom : DiskCh) (revs : nat) (res : N) (offs : list N) (st : option DiskCh) (ch : DiskCh) (d : DiskImage)
  : outcome (DiskCh * DiskImage) :=
  match offs with
  | [] => Ok (ch, d)
  | off :: offs =>
      let (r, st) := ch_iter_next geom st in
      match r with
      | None => Panic                                                   (* unwrap *)
      | Some ch =>
          let! (id, rest) := read_exact 4 (skipn (N.to_nat off) file) in
          if negb (forallb (fun p => fst p =? snd p)%N (combine (firstn 3 id) [0x54; 0x52; 0x4B]%N)) then Err ImageCorruptError else
          let! hs := scp_rev_headers revs rest in
          let! rs := scp_revs file off res hs in
          let! d := flux_add dec d ch rs in
          scp_tracks dec file geom revs res offs st ch d
      end
  end.
(* 206-540 load_image *)
Definition scp_load_image (dec : Decoder) (d : DiskImage) (file : list N) : outcome DiskImage :=
  let! (h, rest) := read_exact 16 file in
  if negb (forallb (fun p => fst p =? snd p)%N (combine (firstn 3 h) [0x53; 0x43; 0x50]%N)) then Err UnsupportedFormat else
  if negb (scp_known_type (nth 4 h 0%N)) then Err IncompatibleImage else
  if negb (N.land (nth 8 h 0) 0x40 =? 0)%N then Err IncompatibleImage else
  if negb (nth 9 h 0 =? 0)%N then Err IncompatibleImage else
  let! heads := (if (nth 10 h 0 =? 0)%N then Ok 2%N else if (nth 10 h 0 =? 1)%N then Ok 1%N else Err IncompatibleImage) in
  let res := (25 + nth 11 h 0 * 25)%N in
  let! (o0, rest) := read_le32 rest in
  if (o0 <? 0x10)%N then Err ImageCorruptError else
  let max := ((o0 - 0x10) / 4)%N in
  if (max =? 0)%N then Panic else                                        (* max_table_size - 1 *)
  let! os := scp_offsets (N.to_nat (max - 1)) rest o0 (N.of_nat (length file)) in
  let! (ch, d) := scp_tracks dec file (mkCh 84 heads) (N.to_nat (nth 5 h 0%N)) res (o0 :: os) None (mkCh 0 0) d in
  Ok (with_geom d (mkCh (ch_c ch + 1) heads)).
