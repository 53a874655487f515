(* Chs_spec.v - what the addressing properties mean, independent of the conversion functions. *)
From Verif Require Import Base Chs_model.
Local Open Scope N_scope.

(* The type ranges of a SectorLayout value plus: at least one head and one sector per track. *)
Definition layout_ok (g : SectorLayout) : Prop :=
  l_c g < 65536 /\ 0 < l_h g < 256 /\ 0 < l_s g < 256 /\ l_s_off g < 256.

(* A sector address lies on the disk: ids run s_off, s_off+1, ..., s_off+s-1. *)
Definition on_disk (g : SectorLayout) (x : DiskChs) : Prop :=
  chs_c x < l_c g /\ chs_h x < l_h g /\ l_s_off g <= chs_s x < l_s_off g + l_s g.

(* Every sector of the disk in the order a raw image stores them: cylinder, then head, then
   sector (sector fastest). *)
Definition all_sectors (g : SectorLayout) : list DiskChs :=
  flat_map (fun c => flat_map (fun h => map (fun s => mkChs c h (l_s_off g + s)) (Nseq (l_s g)))
                              (Nseq (l_h g))) (Nseq (l_c g)).

(* Every track, head fastest. *)
Definition all_tracks (geom : DiskCh) : list DiskCh :=
  flat_map (fun c => map (fun h => mkCh c h) (Nseq (ch_h geom))) (Nseq (ch_c geom)).

(* The first k results of an iterator over l: the elements, then None for ever. *)
Definition drained {A} (k : nat) (l : list A) : list (option A) :=
  map (nth_error l) (seq 0 k).
