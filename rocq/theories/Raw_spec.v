(* Raw_spec.v - what the raw sector image properties mean. *)
From Coq Require Import List.
From Verif Require Import Base Chs_model Types_model Mfm_model BitStream_model DiskImage_model Format_model Format_spec SectorView_spec Raw_model.
Import ListNotations.

(* the standard format that the sector as a boot sector names (BootSector::standard_format), if any *)
Definition names_format (sector : list N) : option StandardFormat :=
  match boot_new sector with Ok b => boot_standard_format b | _ => None end.
(* the track at cylinder c of head 0 *)
Definition head0 (d : DiskImage) (c : N) : option DTrack :=
  match di_track d (mkCh c 0) with Ok t => t | _ => None end.
(* SHA-1 tells the cells of the tracks of at least one pair (2k, 2k+1) of head 0 apart if they differ.  Only 80 cylinder
   disks are checked for duplicate tracks. *)
Definition some_pair_told_apart (sha1 : list N -> N) (d : DiskImage) : Prop :=
  exists k a b, (k < 40)%N /\ head0 d (2 * k) = Some (TBit a) /\ head0 d (2 * k + 1) = Some (TBit b) /\
    (pack (mfm_data (bt_data a)) <> pack (mfm_data (bt_data b)) ->
     sha1 (pack (mfm_data (bt_data a))) <> sha1 (pack (mfm_data (bt_data b)))).
(* sector writes: (cylinder, head, sector, data) *)
Fixpoint write_sectors (ws : list (N * N * N * list N)) (d : DiskImage) : option DiskImage :=
  match ws with
  | [] => Some d
  | (c, h, s, data) :: t => match di_write_sector_basic d (mkCh c h) (sector_query c h s) None data with (d', Ok _) => write_sectors t d' | _ => None end
  end.
Definition write_flat (f : StandardFormat) (ws : list (N * N * N * list N)) (flat : list N) : list N :=
  fold_left (fun flat '(c, h, s, data) => splice flat (N.to_nat (sector_no f c h s * 512)) data) ws flat.
Definition write_ok (f : StandardFormat) (w : N * N * N * list N) : Prop :=
  let '(c, h, s, data) := w in in_layout f c h s /\ length data = 512 /\ bytes_ok data = true.
(* the data of track (c, h) of an Amiga 880K image: 11 sectors of 512 bytes *)
Definition adf_track (img : list N) (c h : N) : list N := slice img (N.to_nat ((2 * c + h) * 5632)) (11 * 512).
