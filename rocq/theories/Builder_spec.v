(* Builder_spec.v - what the image builder properties mean. *)
From Coq Require Import List.
From Verif Require Import Base Chs_model BitRing_model Mfm_model Types_model System34_model MetaSector_model BitStream_model DiskImage_model Format_model Format_spec.
Import ListNotations.
Local Open Scope N_scope.

(* a disk of blank tracks: a track at every position of the layout of f, with the number of cells of the format, clock
   cells set, data cells clear and no sectors; no other tracks *)
Definition blank_disk (d : DiskImage) (f : StandardFormat) : Prop :=
  di_geom d = mkCh (l_c (sf_layout f)) (l_h (sf_layout f)) /\ di_res d = [RBitStream] /\
  (forall c h, c < l_c (sf_layout f) -> h < l_h (sf_layout f) -> exists t, di_track d (mkCh c h) = Ok (Some (TBit t)) /\
     bt_ch t = mkCh c h /\ bt_sector_list t = [] /\ N.of_nat (length (mfm_data (bt_data t))) = sf_bitcell_ct f /\
     forall i, (i < length (mfm_data (bt_data t)))%nat -> nth_error (mfm_data (bt_data t)) i = Some (Nat.even i)) /\
  (forall c h, h < 2 -> l_c (sf_layout f) <= c \/ l_h (sf_layout f) <= h -> di_track d (mkCh c h) = Ok None).
(* the sector data of a freshly formatted disk as a flat file: the boot sector, then zero bytes *)
Definition fresh_flat (f : StandardFormat) (B : list N) : list N := B ++ repeat 0 (N.to_nat (sf_disk_size f) - 512).
(* a creator tag as written on the disk: 8 bytes, cut off or padded with spaces *)
Definition creator_field (tag : list N) : list N := firstn 8 (tag ++ repeat 0x20 8).
