(* Psi_spec.v - the contents of PSI files, following the description of the format (chunks of id, size, data and CRC). *)
From Verif Require Import Base Chs_model Types_model MetaSector_model MetaSector_spec BitStream_model DiskImage_model DiskImage_spec Pce_model.
Import ListNotations.

(* a chunk: a four byte id and its data; on disk as in C34 *)
Definition Chunk : Set := (list N * list N)%type.
Definition PSI_ : list N := [0x50; 0x53; 0x49; 0x20]%N.
Definition SECT : list N := [0x53; 0x45; 0x43; 0x54]%N.
Definition DATA : list N := [0x44; 0x41; 0x54; 0x41]%N.
Definition IBMM : list N := [0x49; 0x42; 0x4D; 0x4D]%N.
Definition OFFS : list N := [0x4F; 0x46; 0x46; 0x53]%N.
Definition END_ : list N := [0x45; 0x4E; 0x44; 0x20]%N.
Definition chunks_bytes (cs : list Chunk) : list N := flat_map (fun c => write_chunk (fst c) (snd c)) cs.
Definition be16 (x : N) : list N := [x / 256; x mod 256]%N.
(* chunks that do not bear on the sectors: text, clocks, weak bits, unknown chunks; OFFS chunks of at least four bytes *)
Definition aside (c : Chunk) : Prop :=
  length (fst c) = 4 /\ fst c <> SECT /\ fst c <> DATA /\ fst c <> IBMM /\ fst c <> END_ /\ (fst c = OFFS -> 4 <= length (snd c)).

(* the sector ID as read from an IBM MFM disk, with its flags *)
Record IbmHeader : Set := mkIbm { ih_c : N; ih_h : N; ih_s : N; ih_n : N; ih_flags : N; ih_encoding : N }.
(* the data: one byte repeated, or a DATA chunk, with an IBM header in between or not, and chunks aside *)
Inductive Body : Set :=
| Fill (b : N)
| Stored (before : list Chunk) (ibm : option (IbmHeader * list Chunk)) (unused : N) (data : list N).
Record SectorDesc : Set := mkSD { sd_aside : list Chunk; sd_num : N; sd_size : N; sd_flags : N; sd_body : Body }.
Record TrackDesc : Set := mkTD { td_cyl : N; td_head : N; td_sectors : list SectorDesc }.

Definition ibm_chunk (i : IbmHeader) : Chunk := (IBMM, [ih_c i; ih_h i; ih_s i; ih_n i; ih_flags i; ih_encoding i]).
Definition sector_chunks (t : TrackDesc) (s : SectorDesc) : list Chunk :=
  sd_aside s ++
  [(SECT, be16 (td_cyl t) ++ [td_head t; sd_num s] ++ be16 (sd_size s) ++
          [sd_flags s; match sd_body s with Fill b => b | Stored _ _ u _ => u end])] ++
  match sd_body s with
  | Fill _ => []
  | Stored before ibm _ data =>
      before ++ match ibm with Some (i, after) => ibm_chunk i :: after | None => [] end ++ [(DATA, data)]
  end.
Definition track_chunks (t : TrackDesc) : list Chunk := flat_map (sector_chunks t) (td_sectors t).
(* the whole file: version, format of the sectors, the tracks, chunks aside, and whatever follows the END chunk *)
Definition psi_file (header : list N) (ts : list TrackDesc) (last : list Chunk) (end_data rest : list N) : list N :=
  chunks_bytes ((PSI_, header) :: flat_map track_chunks ts ++ last ++ [(END_, end_data)]) ++ rest.

Definition small (c : Chunk) : Prop := (N.of_nat (length (snd c)) <= 0x100000)%N.
Definition aside_ok (cs : list Chunk) : Prop := Forall aside cs /\ Forall small cs.
Definition valid_sector (s : SectorDesc) : Prop :=
  aside_ok (sd_aside s) /\ (sd_size s < 65536)%N /\
  N.testbit (sd_flags s) 1 = false /\                       (* not an alternate copy of a sector *)
  match sd_body s with
  | Fill _ => N.testbit (sd_flags s) 0 = true               (* bit 0: compressed *)
  | Stored before ibm _ data =>
      N.testbit (sd_flags s) 0 = false /\ aside_ok before /\ (N.of_nat (length data) <= 0x100000)%N /\
      match ibm with Some (_, after) => aside_ok after | None => True end
  end.
Record valid_track (t : TrackDesc) : Prop := mkVT {
  vt_cyl : (td_cyl t < 65536)%N; vt_head : (td_head t < 2)%N; vt_ne : td_sectors t <> [];
  vt_sectors : Forall valid_sector (td_sectors t) }.
(* header: version (two bytes), then one of the six sector formats *)
Definition valid_header (h : list N) : Prop :=
  (N.of_nat (length h) <= 0x100000)%N /\
  exists v1 v2 a b more, h = v1 :: v2 :: a :: b :: more /\ In (a, b) [(0, 0); (1, 0); (2, 0); (2, 1); (2, 2); (3, 0)]%N.

(* what is loaded *)
Definition sector_params (t : TrackDesc) (s : SectorDesc) : AddSectorParams :=
  let phys := mkChsn (mkChs (td_cyl t) (td_head t) (sd_num s)) (bytes_to_n (sd_size s)) in
  match sd_body s with
  | Fill b =>
      mkAddSector phys (repeat b (N.to_nat (sd_size s))) None None (mkAttr false (N.testbit (sd_flags s) 2) false false) false
  | Stored _ None _ data =>
      mkAddSector phys data None None (mkAttr false (N.testbit (sd_flags s) 2) false false) false
  | Stored _ (Some (i, _)) _ data =>
      mkAddSector (mkChsn (mkChs (ih_c i) (ih_h i) (ih_s i)) (ih_n i)) data None None
        (mkAttr (N.testbit (ih_flags i) 0) (N.testbit (ih_flags i) 1) (N.testbit (ih_flags i) 2) (N.testbit (ih_flags i) 3)) false
  end.
Definition track_of (t : TrackDesc) : DTrack :=
  TMeta (mkMST (mkCh (td_cyl t) (td_head t)) (map (fun s => sector_of (sector_params t s)) (td_sectors t))).
Definition heads_of (ts : list TrackDesc) : Heads :=
  (map track_of (filter (fun t => (td_head t =? 0)%N) ts), map track_of (filter (fun t => (td_head t =? 1)%N) ts)).
Definition head_count (ts : list TrackDesc) : N :=
  ((if existsb (fun t => (td_head t =? 0)%N) ts then 1 else 0) + (if existsb (fun t => (td_head t =? 1)%N) ts then 1 else 0))%N.
(* no two tracks for the same cylinder and head: the sectors of a track are together in the file *)
Definition tracks_together (ts : list TrackDesc) : Prop := NoDup (map (fun t => (td_cyl t, td_head t)) ts).
