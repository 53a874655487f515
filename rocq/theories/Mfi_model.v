(* Mfi_model.v - src/file_parsers/mfi.rs: the MAME floppy image (MFI) loader.
   flate2 (zlib) is a parameter: inflate data n is the buffer of n bytes after a decompression without an error, None otherwise.  The decoder
   of a track gets its flux times in nanoseconds, and those of all tracks before it, on which the RPM (so the index time, which the file does
   not have: 0 stands for it) may depend.  Not modelled: logging, source map, density, data rate, progress callback, the format variant
   (only logged), NFA and hole zones (collected and never used), allocating buffers of the sizes in the file. *)
From Verif Require Import Base Chs_model BitRing_model Mfm_model Types_model System34_model MetaSector_model BitStream_model DiskImage_model Raw_model F86_model Pce_model Flux_model Pll_model Hist_model.
From Coq Require Import QArith Qabs Qround.
Import ListNotations.
Local Close Scope Q_scope.
Local Open Scope nat_scope.

(* 193-201 MfiTrackHeader, without write_splice *)
Record MfiEntry : Set := mkME { me_offset : N; me_comp : N; me_uncomp : N }.
Definition mfi_signature : list N := [0x4D; 0x41; 0x4D; 0x45; 0x46; 0x4C; 0x4F; 0x50; 0x50; 0x59; 0x49; 0x4D; 0x41; 0x47; 0x45]%N.
(* 97-108: the form factors *)
Definition mfi_form_known (f : list N) : bool :=
  id_eqb f [0x33; 0x35; 0x20; 0x20]%N || id_eqb f [0x35; 0x32; 0x35; 0x20]%N || id_eqb f [0x38; 0x20; 0x20; 0x20]%N.
(* 343-391: the table of tracks *)
Fixpoint mfi_table (fuel : nat) (geom : DiskCh) (st : option DiskCh) (disk_len last : N) (rest : list N) : outcome (list MfiEntry) :=
  match ch_iter_next geom st with
  | (None, _) => Ok []
  | (Some _, st) =>
      match fuel with
      | O => Panic
      | S fuel =>
          let! (off, rest) := read_le32 rest in
          let! (comp, rest) := read_le32 rest in
          let! (uncomp, rest) := read_le32 rest in
          let! (_, rest) := read_le32 rest in
          if (0 <? comp)%N && (off <? last)%N then Err ImageCorruptError
          else if (disk_len <? off)%N then Err ImageCorruptError
          else
            let! l := mfi_table fuel geom st disk_len (if (off =? 0)%N then last else off) rest in
            Ok (mkME off comp uncomp :: l)
      end
  end.
(* 397-456: the data of the tracks, with their positions *)
Fixpoint mfi_data (inflate : list N -> nat -> option (list N)) (file : list N) (geom cursor : DiskCh) (entries : list MfiEntry) : outcome (list (DiskCh * list N)) :=
  match entries with
  | [] => Ok []
  | e :: entries =>
      let! data :=
        if (me_offset e =? 0)%N || (me_comp e =? 0)%N || (me_uncomp e =? 0)%N then Ok []
        else
          let! (packed, _) := read_exact (N.to_nat (me_comp e)) (skipn (N.to_nat (me_offset e)) file) in
          match inflate packed (N.to_nat (me_uncomp e)) with Some buf => Ok buf | None => Err ImageCorruptError end in
      let! l := mfi_data inflate file geom (fst (seek_next_track cursor geom)) entries in
      Ok ((cursor, data) :: l)
  end.
(* 743-753 mfi_read_flux and 548-619: the times of the flux entries *)
Fixpoint mfi_fluxes (data : list N) : outcome (list N) :=
  match data with
  | a :: b :: c :: d :: t =>
      let w := (a + 256 * b + 65536 * (c + 256 * d))%N in
      let typ := (w / 0x10000000)%N in
      if (3 <? typ)%N then Panic
      else let! l := mfi_fluxes t in Ok (if (typ =? 0)%N then w :: l else l)
  | _ => Ok []
  end.
Definition MfiDecoder : Set := list (list N) -> Decoder.
(* 466-527: is_empty() is never true, the track has the revolution just added *)
Fixpoint mfi_add (dec : MfiDecoder) (past : list (list N)) (d : DiskImage) (tracks : list (DiskCh * list N)) : outcome DiskImage :=
  match tracks with
  | [] => Ok d
  | (ch, data) :: tracks =>
      let! fts := mfi_fluxes data in
      let! d := flux_add (dec past) d ch [(fts, 0%N)] in
      mfi_add dec (past ++ [fts]) d tracks
  end.
(* 267-541 load_image *)
Definition mfi_load_image (inflate : list N -> nat -> option (list N)) (dec : MfiDecoder) (d : DiskImage) (file : list N) : outcome DiskImage :=
  let! (id, rest) := read_exact 16 file in
  let! (cylinders, rest) := read_le32 rest in
  let! (heads, rest) := read_le32 rest in
  let! (form, rest) := read_exact 4 rest in
  let! (_, rest) := read_exact 4 rest in
  if negb (id_eqb (firstn 15 id) mfi_signature) then Err UnsupportedFormat
  else if negb (mfi_form_known form) then Err UnsupportedFormat
  else
    let geom := mkCh (as_u16 (N.land cylinders 0x3FFFFFFF)) (as_u8 heads) in
    if (ch_c geom =? 0)%N || (ch_h geom =? 0)%N then Err ImageCorruptError
    else
      let! entries := mfi_table (N.to_nat (ch_c geom * ch_h geom)) geom None (N.of_nat (length file)) 0 rest in
      let! tracks := mfi_data inflate file geom (mkCh 0 0) entries in
      let! d := mfi_add dec [] d tracks in
      Ok (with_geom d geom).

(* 680-741 normalize_flux_times(None): the times, and the detected RPM if they were adjusted *)
Definition c1e6 : Q := 1000000.
Definition mfi_normalize (rd : Q -> Q) (fts : list Q) : list Q * option Q :=
  match base_transition_time rd (hist_new rd fts c02) with
  | Some t =>
      let rpm := rd (rd (rd (t / 2) * c1e6) * 300)%Q in
      if in_range 340 380 rpm then (map (fun ft => rd (ft * c56)%Q) fts, Some rpm) else (fts, None)
  | None => (fts, None)
  end.
(* 564 *)
Definition c1n : Q := 4835703278458517 # 4835703278458516698824704.   (* 1e-9 *)
Definition mfi_seconds (rd : Q -> Q) (t : N) : Q := rd (inject_Z (Z.of_N t) * c1n)%Q.
(* 625-634 and the decoding in add_track_fluxstream; `hint` is the RPM (in RPM) of the first track, when there is one *)
Definition mfi_track (rd : Q -> Q) (fuel : nat) (rnd : nat -> bool) (fm : list bool -> outcome BitTrack) (hint : option Q) (ch : DiskCh) (times : list N) : outcome BitTrack :=
  let (fts, detected) := mfi_normalize rd (map (mfi_seconds rd) times) in
  let rpm := match hint with Some r => r | None => match detected with Some r => rd (360 * rd (r / 360))%Q | None => 300%Q end end in
  revolution_track rd fuel rnd fm None None ch fts (rd (60 / rpm)%Q).
(* process_track_data_new and add_track_fluxstream as a decoder; 511-515: the speed carried over depends on the tracks before *)
Definition mfi_decoder (rd : Q -> Q) (fuel : nat) (rnd : nat -> bool) (fm : list bool -> outcome BitTrack) (hint : list (list N) -> option Q) : MfiDecoder :=
  fun past ch revs => match revs with [(times, _)] => omap (fun t => [t]) (mfi_track rd fuel rnd fm (hint past) ch times) | _ => Panic end.
