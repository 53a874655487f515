(* Builder_model.v - src/image_builder.rs 55-352 (ImageBuilder: blank and pre-formatted disk images).  No proofs here.
   Simplified: `from_path` and `from_archive` are None (build_fat needs the native file system and the `fatfs` crate),
   so bootable, recursive and must_fit, used only there, are dropped; the DIRTY flag is not modelled.
   The image and its `boot_sector` field are returned as a pair, as in Raw_model.  sha1 is SHA-1 (a parameter). *)
From Coq Require Import List.
From Verif Require Import Base Chs_model BitRing_model Mfm_model Types_model System34_model MetaSector_model BitStream_model DiskImage_model Format_model Raw_model.
Import ListNotations.

(* 55-85; #[derive(Default)] *)
Record ImageBuilder : Set := mkIB {
  ib_format : option StandardFormat; ib_res : option Resolution; ib_creator : option (list N);
  ib_formatted : bool; ib_fs : option FileSystemType }.
(* 88-90 new *)
Definition ib_new : ImageBuilder := mkIB None None None false None.
(* 93-96 *)
Definition with_standard_format (b : ImageBuilder) (f : StandardFormat) : ImageBuilder :=
  mkIB (Some f) (ib_res b) (ib_creator b) (ib_formatted b) (ib_fs b).
(* 99-102 *)
Definition with_resolution (b : ImageBuilder) (r : Resolution) : ImageBuilder :=
  mkIB (ib_format b) (Some r) (ib_creator b) (ib_formatted b) (ib_fs b).
(* 107-113 *)
Definition with_filesystem (b : ImageBuilder) (fs : FileSystemType) : ImageBuilder :=
  mkIB (ib_format b) (ib_res b) (ib_creator b) true (Some fs).
(* 117-121: formatted.then_some(Fat12) *)
Definition with_formatted (b : ImageBuilder) (v : bool) : ImageBuilder :=
  mkIB (ib_format b) (ib_res b) (ib_creator b) v (if v then Some Fat12 else None).
(* 181-188: [0x20; 8] with the first min(len, 8) bytes copied over *)
Definition with_creator_tag (b : ImageBuilder) (tag : list N) : ImageBuilder :=
  let max_len := Nat.min (length tag) 8 in
  mkIB (ib_format b) (ib_res b) (Some (firstn max_len tag ++ skipn max_len (repeat 0x20%N 8))) (ib_formatted b) (ib_fs b).

(* 209-232: the image with its empty tracks.  Every standard format is MFM (standard_format.rs 250-252). *)
Definition ib_tracks (f : StandardFormat) : outcome DiskImage :=
  ofold (fun d ch => let (d', r) := add_empty_track d ch (Some RBitStream) (N.to_nat (sf_bitcell_ct f)) (Some false) in
                     let! _ := r in Ok d')
        (tracks_of (sf_layout f)) (set_resolution (di_create (sf_ch f) (l_s (sf_layout f))) RBitStream).
(* 209-244: formatted, before post_load_process *)
Definition ib_bitstream_formatted (rnd : Rnd) (f : StandardFormat) (fs : FileSystemType) (creator : option (list N)) : outcome DiskImage :=
  let! d := ib_tracks f in
  let (d, r) := di_format rnd d f RBitStream fs None creator in
  let! _ := r in Ok d.
(* 209-292 build_bitstream *)
Definition ib_build_bitstream (sha1 : list N -> N) (rnd : Rnd) (b : ImageBuilder) (f : StandardFormat) : outcome (DiskImage * option BootSector) :=
  let! r := match ib_formatted b, ib_fs b with
            | true, Some fs => let! d := ib_bitstream_formatted rnd f fs (ib_creator b) in post_load_process sha1 rnd d
            | _, _ => let! d := ib_tracks f in Ok (d, None)
            end in
  if (N.of_nat (length (di_map0 (fst r))) =? l_c (sf_layout f))%N then Ok r else Err ParameterError.
(* 294-310 build_metasector *)
Definition ib_build_metasector (sha1 : list N -> N) (rnd : Rnd) (b : ImageBuilder) (f : StandardFormat) : outcome (DiskImage * option BootSector) :=
  if ib_formatted b then Err UnsupportedFormat
  else post_load_process sha1 rnd (set_resolution (di_create (sf_ch f) (l_s (sf_layout f))) RMetaSector).
(* 191-207 build *)
Definition ib_build (sha1 : list N -> N) (rnd : Rnd) (b : ImageBuilder) : outcome (DiskImage * option BootSector) :=
  match ib_res b with
  | None => Err ParameterError
  | Some r =>
      match ib_format b with
      | Some f => match r with
                  | RBitStream => ib_build_bitstream sha1 rnd b f
                  | RMetaSector => ib_build_metasector sha1 rnd b f
                  | _ => Err UnsupportedFormat
                  end
      | None => Err UnsupportedFormat
      end
  end.
