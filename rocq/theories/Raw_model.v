(* Raw_model.v - src/file_parsers/raw.rs (raw sector images: load and save), and diskimage.rs 1421-1474
   (post_load_process) and 2039-2094 (closest_format).  No proofs here.
   A reader is the list of the bytes not yet read.  A failed load returns no image.  The `adf` feature is on (it is in
   the default feature set, Cargo.toml).  sha1 is SHA-1 of a byte string (a parameter of the model).
   Dropped: the descriptor fields other than the geometry (rates, encoding, rpm), the source format, progress calls. *)
From Coq Require Import List.
From Verif Require Import Base Chs_model BitRing_model Mfm_model Types_model System34_model MetaSector_model BitStream_model DiskImage_model Format_model.
Import ListNotations.

(* Read::read_exact *)
Definition read_exact (n : nat) (rest : list N) : outcome (list N * list N) :=
  if length rest <? n then Err IoError else Ok (firstn n rest, skipn n rest).
(* `for x in iter`: the results of next() up to the first None *)
Fixpoint drain {A} (l : list (option A)) : list A := match l with Some x :: t => x :: drain t | _ => [] end.
(* layout.ch().iter(), layout.ch_iter(), layout.chsn_iter(): the iterators of chs.rs, called often enough to end *)
Definition tracks_of (g : SectorLayout) : list DiskCh :=
  drain (ch_iter (N.to_nat (l_c g * l_h g) + 1) (mkCh (l_c g) (l_h g))).
Definition sectors_of (g : SectorLayout) : outcome (list DiskChsn) :=
  omap drain (chsn_iter (N.to_nat (l_c g * l_h g * l_s g) + 1) g).
(* DiskChsn::new(c, h, s + s_off, layout.n()) for s in 0..layout.s() *)
Definition raw_id (g : SectorLayout) (ch : DiskCh) (s : N) : DiskChsn :=
  mkChsn (mkChs (ch_c ch) (ch_h ch) (s + l_s_off g)) (bytes_to_n (l_size g)).

(* raw.rs 185-208: the data of one track, one read_exact per sector *)
Definition read_pattern (g : SectorLayout) (rest : list N) : outcome (list N * list N) :=
  ofold (fun '(pat, rest) (_ : N) => let! (b, rest) := read_exact (N.to_nat (l_size g)) rest in Ok (pat ++ b, rest))
        (Nseq (l_s g)) ([], rest).
(* 185-219: one track *)
Definition load_bit_track (rnd : Rnd) (f : StandardFormat) (st : DiskImage * list N) (ch : DiskCh) : outcome (DiskImage * list N) :=
  let '(d, rest) := st in
  let g := sf_layout f in
  let (d, r) := add_empty_track d ch (Some RBitStream) (N.to_nat (sf_bitcell_ct f)) (Some false) in
  let! ti := r in
  let! (pat, rest) := read_pattern g rest in
  let! t := match nth_error (di_pool d) ti with Some t => Ok t | None => Err FormatParseError end in
  let! t' := tk_format rnd t SIbm (map (raw_id g ch) (Nseq (l_s g))) pat (N.to_nat (sf_gap3 f)) in
  Ok (with_pool d (upd (di_pool d) ti t'), rest).
(* 162-235 load_as_bitstream *)
Definition load_as_bitstream (rnd : Rnd) (d : DiskImage) (f : StandardFormat) (img : list N) : outcome DiskImage :=
  let! (d, _) := ofold (load_bit_track rnd f) (tracks_of (sf_layout f)) (set_resolution d RBitStream, img) in
  Ok (with_geom d (sf_ch f)).

(* 258-290: one track; the new track is the last of the pool, `add_sector` works on a reference to it *)
Definition load_meta_track (f : StandardFormat) (st : DiskImage * list N) (ch : DiskCh) : outcome (DiskImage * list N) :=
  let '(d, rest) := st in
  let g := sf_layout f in
  let (d, r) := add_track_metasector d ch in
  let! ti := r in
  let! t := oindex (di_pool d) ti in
  match t with
  | TMeta m =>
      let! (m, rest) := ofold (fun '(m, rest) s =>
          let! (b, rest) := read_exact (N.to_nat (l_size g)) rest in
          let! m := mt_add_sector m (mkAddSector (raw_id g ch s) b None None (mkAttr false false false false) false) in
          Ok (m, rest)) (Nseq (l_s g)) (m, rest) in
      Ok (with_pool d (upd (di_pool d) ti (TMeta m)), rest)
  | _ => Panic
  end.
(* 237-303 load_as_metasector *)
Definition load_as_metasector (d : DiskImage) (f : StandardFormat) (img : list N) : outcome DiskImage :=
  let! (d, _) := ofold (load_meta_track f) (tracks_of (sf_layout f)) (set_resolution d RMetaSector, img) in
  Ok (with_geom d (sf_ch f)).

(* 106-160 load_image; Platform::from(StandardFormat): the Amiga formats are Amiga, all others IbmPc *)
Definition raw_load_image (rnd : Rnd) (d : DiskImage) (img : list N) : outcome DiskImage :=
  let raw_len := N.of_nat (length img) in
  match sf_of_size raw_len with
  | None => Err UnknownFormat
  | Some f =>
      let track_size := (l_s (sf_layout f) * sf_sector_size f)%N in
      if negb (l_c (sf_layout f) * l_h (sf_layout f) =? raw_len / track_size)%N then Err UnknownFormat
      else if negb (raw_len mod track_size =? 0)%N then Err UnknownFormat
      else match f with
           | AmigaFloppy880 | AmigaFloppy1760 => load_as_metasector d f img
           | _ => load_as_bitstream rnd d f img
           end
  end.

(* BitVec::to_bytes: most significant bit first, the last byte padded with zero bits *)
Definition pack (l : list bool) : list N :=
  map (fun i => bits_val (map (fun j => nth (8 * i + j) l false) (seq 0 8))) (seq 0 ((length l + 7) / 8)).
(* hash() of the three track types: bitstream.rs 641-645, metasector.rs 506-511 (read_all_sectors never fails; weak data
   is random), fluxstream.rs 309-315 *)
Definition bit_hash (sha1 : list N -> N) (t : BitTrack) : N := sha1 (pack (mfm_data (bt_data t))).
Definition track_hash (sha1 : list N -> N) (rnd : Rnd) (t : DTrack) : N :=
  match t with
  | TMeta t => match mt_read_all_sectors (rnd_sector rnd) t 255 with Ok r => sha1 (rt_buf r) | _ => 0%N end
  | TBit t => bit_hash sha1 t
  | TFlux f => match ft_bitstream f with Ok (Some b) => bit_hash sha1 b | _ => 0%N end
  end.
(* diskimage.rs 1421-1474 post_load_process, 1396-1401 parse_boot_sector: the image and its `boot_sector` field.
   The `standard_format` field is only set here and read by no function modelled. *)
Definition post_load_process (sha1 : list N -> N) (rnd : Rnd) (d : DiskImage) : outcome (DiskImage * option BootSector) :=
  let! d := normalize (track_hash sha1 rnd) d in
  let! d := di_analyze d in
  match read_boot_sector rnd d with
  | Panic => Panic
  | Err _ => Ok (d, None)
  | Ok buf => match boot_new buf with Ok b => Ok (d, Some b) | Err _ => Ok (d, None) | Panic => Panic end
  end.
(* DiskImage::load for an image detected as raw *)
Definition raw_load (sha1 : list N -> N) (rnd : Rnd) (img : list N) : outcome (DiskImage * option BootSector) :=
  let! d := raw_load_image rnd di_default img in post_load_process sha1 rnd d.

(* 2039-2094 closest_format; `heads()` is the head count of the geometry, `spt as u8` *)
Definition sf_eqb (a b : StandardFormat) : bool := (sf_disk_size a =? sf_disk_size b)%N.
Definition osf_eqb (a b : option StandardFormat) : bool :=
  match a, b with Some a, Some b => sf_eqb a b | None, None => true | _, _ => false end.
Definition is_some {A} (o : option A) : bool := match o with Some _ => true | None => false end.
Definition closest_format (d : DiskImage) (boot : option BootSector) (trust_bpb : bool) : option StandardFormat :=
  let bpb := match boot with Some b => boot_standard_format b | None => None end in
  let consistency :=
    match da_spt (di_analysis d) with
    | Some spt => match normalized_track_ct (N.of_nat (length (di_map0 d))) with
                  | Some c => sf_of_chs (mkChs c (ch_h (di_geom d)) (as_u8 spt))
                  | None => None
                  end
    | None => None
    end in
  let or := match bpb with Some _ => bpb | None => consistency end in
  if (is_some bpb || is_some consistency) && negb (osf_eqb bpb consistency)
  then if trust_bpb && is_some bpb then bpb else if is_some consistency then consistency else or
  else or.

(* raw.rs 305-361 save_image: the bytes written *)
Definition fit_sector (size : nat) (b : list N) : list N :=
  if size <? length b then firstn size b else b ++ repeat 0%N (size - length b).
Definition raw_save (rnd : Rnd) (d : DiskImage) (boot : option BootSector) : outcome (list N) :=
  match closest_format d boot true with
  | None => Err UnsupportedFormat
  | Some f =>
      let! ids := sectors_of (sf_layout f) in
      ofold (fun out id =>
        match di_read_sector_basic rnd d (mkCh (chsn_c id) (chsn_h id)) (query_of_chsn id) None with
        | Ok b => Ok (out ++ fit_sector (N.to_nat (n_to_bytes (chsn_n id))) b)
        | Err _ => Err DataError
        | Panic => Panic
        end) ids []
  end.
