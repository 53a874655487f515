(* Imd_spec.v - the contents of ImageDisk files, following the format's documentation. *)
From Verif Require Import Base Chs_model Types_model MetaSector_model MetaSector_spec BitStream_model DiskImage_model DiskImage_spec.
Import ListNotations.

(* a data record: missing, or the data (written out, or one byte repeated), normal, deleted or with a data error *)
Inductive Flag : Set := Normal | Deleted | DataError.
Inductive Content : Set := Unavailable | Plain (f : Flag) (data : list N) | Fill (f : Flag) (b : N).
Record SectorDesc : Set := mkSD { sd_num : N; sd_cyl : N; sd_head : N; sd_content : Content }.
Record TrackDesc : Set := mkTD {
  td_mode : N; td_cyl : N; td_head : N; td_size : N; td_cylmap : bool; td_headmap : bool; td_sectors : list SectorDesc }.

Definition size_of (code : N) : nat := N.to_nat (128 * 2 ^ code).
(* the bytes *)
Definition marker_of (c : Content) : N :=
  match c with
  | Unavailable => 0
  | Plain Normal _ => 1 | Fill Normal _ => 2
  | Plain Deleted _ => 3 | Fill Deleted _ => 4
  | Plain DataError _ => 5 | Fill DataError _ => 6
  end%N.
Definition content_bytes (c : Content) : list N :=
  marker_of c :: match c with Unavailable => [] | Plain _ d => d | Fill _ b => [b] end.
Definition track_bytes (t : TrackDesc) : list N :=
  [td_mode t; td_cyl t; (td_head t + (if td_headmap t then 64 else 0) + (if td_cylmap t then 128 else 0))%N;
   N.of_nat (length (td_sectors t)); td_size t]
  ++ map sd_num (td_sectors t)
  ++ (if td_cylmap t then map sd_cyl (td_sectors t) else [])
  ++ (if td_headmap t then map sd_head (td_sectors t) else [])
  ++ flat_map (fun s => content_bytes (sd_content s)) (td_sectors t).
(* a description that the format can express *)
Record valid_track (t : TrackDesc) : Prop := mkVT {
  vt_mode : (td_mode t < 6)%N; vt_head : (td_head t < 2)%N; vt_size : (td_size t < 7)%N;
  vt_ct : length (td_sectors t) < 128;
  vt_plain : forall s f d, In s (td_sectors t) -> sd_content s = Plain f d -> length d = size_of (td_size t);
  vt_cyl : td_cylmap t = false -> forall s, In s (td_sectors t) -> sd_cyl s = td_cyl t;
  vt_headv : td_headmap t = false -> forall s, In s (td_sectors t) -> sd_head s = td_head t }.

(* what is loaded *)
Definition content_data (size : nat) (c : Content) : list N :=
  match c with Unavailable => [] | Plain _ d => d | Fill _ b => repeat b size end.
Definition flag_of (c : Content) : Flag := match c with Unavailable => Normal | Plain f _ | Fill f _ => f end.
Definition sector_params (t : TrackDesc) (s : SectorDesc) : AddSectorParams :=
  mkAddSector (mkChsn (mkChs (sd_cyl s) (sd_head s) (sd_num s)) (td_size t))
    (content_data (size_of (td_size t)) (sd_content s)) None None
    (mkAttr false (match flag_of (sd_content s) with DataError => true | _ => false end)
                  (match flag_of (sd_content s) with Deleted => true | _ => false end) false) false.
Definition track_of (t : TrackDesc) : DTrack :=
  TMeta (mkMST (mkCh (td_cyl t) (td_head t)) (map (fun s => sector_of (sector_params t s)) (td_sectors t))).
(* the tracks of each head, in the order of the file *)
Definition heads_of (ts : list TrackDesc) : Heads :=
  (map track_of (filter (fun t => (td_head t =? 0)%N) ts), map track_of (filter (fun t => (td_head t =? 1)%N) ts)).
(* a file: text, end-of-text byte, tracks *)
Definition text_end (b : N) : Prop := b = 0x1A%N \/ b = 0%N.
