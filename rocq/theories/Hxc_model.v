(* Hxc_model.v - src/file_parsers/mfm.rs and src/file_parsers/hfe.rs: the loaders for the two HxC bitstream formats.
   A file is the list of its bytes; seeking behind its end is allowed.  Not modelled: the source map, logging, data rate, density. *)
From Verif Require Import Base Chs_model BitRing_model Mfm_model Types_model System34_model BitStream_model DiskImage_model Raw_model F86_model.
Import ListNotations.

Definition read_u8 (rest : list N) : outcome (N * list N) := match rest with a :: t => Ok (a, t) | [] => Err IoError end.

(* ---- mfm.rs ---- *)
(* mfm.rs 46-58 MfmFileHeader, little endian; 133-140: a file too short for a header counts as a header of zeros *)
Record HxmHeader : Set := mkHxm { hx_tracks : N; hx_heads : N; hx_if : N; hx_list : N }.
Definition hxm_header (file : list N) : outcome HxmHeader :=
  match
    (let! (id, r) := read_exact 7 file in                      (* id and the unused byte *)
     let! (tracks, r) := read_le16 r in
     let! (heads, r) := read_u8 r in
     let! (_, r) := read_exact 4 r in                          (* rpm, bit rate *)
     let! (ift, r) := read_u8 r in
     let! (lst, r) := read_le32 r in
     Ok (id, mkHxm tracks heads ift lst))
  with
  | Ok (id, h) => if forallb (fun p => fst p =? snd p)%N (combine (firstn 6 id) [0x48; 0x58; 0x43; 0x4D; 0x46; 0x4D]%N) then Ok h else Err UnsupportedFormat
  | Err _ => Ok (mkHxm 0 0 0 0)
  | Panic => Panic
  end.
(* mfm.rs 60-83 the two kinds of track headers *)
Record HxmTrack : Set := mkHxmT { ht_track : N; ht_side : N; ht_size : N; ht_offset : N }.
Definition hxm_track (advanced : bool) (r : list N) : outcome (HxmTrack * list N) :=
  let! (t, r) := read_le16 r in
  let! (s, r) := read_u8 r in
  let! (_, r) := if advanced then read_exact 4 r else Ok ([], r) in
  let! (z, r) := read_le32 r in
  let! (o, r) := read_le32 r in
  Ok (mkHxmT t s z o, r).
(* mfm.rs 170-224 *)
Fixpoint hxm_table (advanced : bool) (n : nat) (r : list N) : outcome (list HxmTrack) :=
  match n with
  | O => Ok []
  | S n => match hxm_track advanced r with
           | Ok (t, r) => let! ts := hxm_table advanced n r in Ok (t :: ts)
           | Err _ => Err FormatParseError
           | Panic => Panic
           end
  end.
(* mfm.rs 228-282 *)
Fixpoint hxm_tracks (rnd : Rnd) (file : list N) (advanced : bool) (ts : list HxmTrack) (d : DiskImage) : outcome DiskImage :=
  match ts with
  | [] => Ok d
  | t :: ts =>
      let size := if advanced then ((ht_size t + 7) / 8)%N else ht_size t in
      let ct := if advanced then Some (N.to_nat (ht_size t)) else None in
      let! (data, _) := read_exact (N.to_nat size) (skipn (N.to_nat (ht_offset t)) file) in
      let (d, r) := add_track_bitstream rnd d (mkCh (as_u8 (ht_track t)) (ht_side t)) data None ct false in
      let! _ := r in
      hxm_tracks rnd file advanced ts d
  end.
(* mfm.rs 121-297 load_image *)
Definition hxm_load_image (rnd : Rnd) (d : DiskImage) (file : list N) : outcome DiskImage :=
  let! h := hxm_header file in
  let advanced := negb (N.land (hx_if h) 0x80 =? 0)%N in
  let! ts := hxm_table advanced (N.to_nat (hx_tracks h) * N.to_nat (hx_heads h)) (skipn (N.to_nat (hx_list h)) file) in
  let! d := hxm_tracks rnd file advanced ts d in
  Ok (with_geom d (mkCh (hx_tracks h) (hx_heads h))).

(* ---- hfe.rs ---- *)
(* hfe.rs 46-52 reverse_bits; the table of 54-64 is its values *)
Definition reverse_bits (x : N) : N :=
  let x := N.lor (N.land (N.shiftl x 4) 0xFF) (N.shiftr x 4) in
  let x := N.lor (N.land (N.shiftl (N.land x 0x33) 2) 0xFF) (N.shiftr (N.land x 0xCC) 2) in
  N.lor (N.land (N.shiftl (N.land x 0x55) 1) 0xFF) (N.shiftr (N.land x 0xAA) 1).
(* hfe.rs 203-226 *)
Record HfeHeader : Set := mkHfe { hf_tracks : N; hf_sides : N; hf_list : N }.
Definition hfe_header (file : list N) : outcome HfeHeader :=
  let! (sig, r) := read_exact 9 file in                        (* signature and revision *)
  let! (tracks, r) := read_u8 r in
  let! (sides, r) := read_u8 r in
  let! (_, r) := read_exact 7 r in
  let! (lst, r) := read_le16 r in
  let! (_, r) := read_exact 6 r in
  if forallb (fun p => fst p =? snd p)%N (combine (firstn 8 sig) [0x48; 0x58; 0x43; 0x50; 0x49; 0x43; 0x46; 0x45]%N) then Ok (mkHfe tracks sides lst)
  else Err UnknownFormat.
(* hfe.rs 342-352: (offset, length) of each track *)
Fixpoint hfe_index (n : nat) (r : list N) : outcome (list (N * N)) :=
  match n with
  | O => Ok []
  | S n => let! (off, r) := read_le16 r in
           let! (len, r) := read_le16 r in
           if N.odd len then Err FormatParseError
           else let! ts := hfe_index n r in Ok ((off, len) :: ts)
  end.
(* hfe.rs 385-439: the blocks of a track; at most `fuel` of them *)
Fixpoint hfe_blocks (fuel : nat) (remaining : nat) (r : list N) (a b : list N) : outcome (list N * list N) :=
  match fuel with
  | O => Ok (a, b)
  | S fuel =>
      if remaining =? 0 then Ok (a, b)
      else
        let last := remaining <? 512 in
        let size := if last then remaining / 2 else 256 in
        let! (x, r) := read_exact size r in
        let! (y, r) := read_exact size r in
        let a := a ++ map reverse_bits x in
        let b := b ++ map reverse_bits y in
        if last then Ok (a, b) else hfe_blocks fuel (remaining - 2 * size) r a b
  end.
(* hfe.rs 354-493; `c` is the number of the first track of the list *)
Fixpoint hfe_tracks (rnd : Rnd) (file : list N) (sides : N) (ts : list (N * N)) (c : N) (d : DiskImage) : outcome DiskImage :=
  match ts with
  | [] => Ok d
  | (off, len) :: ts =>
      let pos := (off * 512)%N in
      let next := match ts with (o, _) :: _ => (o * 512)%N | [] => N.of_nat (length file) end in
      if (next <? pos)%N then Panic                            (* next_data - track_data_offset *)
      else
        let! (a, b) := hfe_blocks (S (N.to_nat len)) (N.to_nat len) (skipn (N.to_nat pos) file) [] [] in
        let (d, r) := add_track_bitstream rnd d (mkCh c 0) a None None false in
        let! _ := r in
        if (1 <? sides)%N
        then let (d, r) := add_track_bitstream rnd d (mkCh c 1) b None None false in
             let! _ := r in hfe_tracks rnd file sides ts (c + 1) d
        else hfe_tracks rnd file sides ts (c + 1) d
  end.
(* hfe.rs 316-508 load_image *)
Definition hfe_load_image (rnd : Rnd) (d : DiskImage) (file : list N) : outcome DiskImage :=
  let! h := hfe_header file in
  let! ts := hfe_index (N.to_nat (hf_tracks h)) (skipn (N.to_nat (hf_list h) * 512) file) in
  let! d := hfe_tracks rnd file (hf_sides h) ts 0 d in
  Ok (with_geom d (mkCh (hf_tracks h) (hf_sides h))).
