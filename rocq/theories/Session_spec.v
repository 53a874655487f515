(* Session_spec.v - any work on a bit track, and what it must keep. *)
From Verif Require Import Base Chs_model Types_model System34_model Mfm_model BitStream_model.
Import ListNotations.
Local Open Scope nat_scope.

(* requests to a track: all those that read or write sectors or read the track; `rnd` are the random bits the request draws *)
Inductive TrackRequest : Set :=
| RReadSector (q : DiskChsnQuery) (n : option N) (offset : option nat) (scope : RwScope)
| RScanSector (q : DiskChsnQuery) (offset : option nat)
| RWriteSector (q : DiskChsnQuery) (offset : option nat) (data : list N) (scope : RwScope) (deleted debug : bool)
| RRecalculateCrc (q : DiskChsnQuery) (offset : option nat)
| RReadAllSectors (n eot : N)
| RReadTrack (offset : option Z) (overdump : option nat).
Definition then_track {A} (t : BitTrack) (f : A -> BitTrack) (r : outcome A) : outcome BitTrack :=
  match r with Ok x => Ok (f x) | Err _ => Ok t | Panic => Panic end.
(* the track after a request, which goes on after an error *)
Definition request (rnd : nat -> bool) (t : BitTrack) (r : TrackRequest) : outcome BitTrack :=
  match r with
  | RReadSector q n o s => then_track t (fun _ => t) (bt_read_sector rnd t q n o s false)
  | RScanSector q o => then_track t (fun _ => t) (bt_scan_sector t q o)
  | RWriteSector q o d s del dbg => then_track t fst (bt_write_sector t q o d s del dbg)
  | RRecalculateCrc q o => then_track t (fun x => x) (bt_recalculate_crc rnd t q o)
  | RReadAllSectors n eot => then_track t snd (bt_read_all rnd t n eot)
  | RReadTrack o d => then_track t (fun _ => t) (bt_read rnd t o d)
  end.
Fixpoint requests (t : BitTrack) (l : list ((nat -> bool) * TrackRequest)) : outcome BitTrack :=
  match l with
  | [] => Ok t
  | (rnd, r) :: l => match request rnd t r with Ok t' => requests t' l | Err e => Err e | Panic => Panic end
  end.
(* sector reads ask for the data or the CRC *)
Definition usual (r : TrackRequest) : Prop := match r with RReadSector _ _ _ s => s <> EntireElement | _ => True end.
(* nothing that identifies the track has changed: where it is, how many cells and which sectors it has *)
Definition same_layout (t t' : BitTrack) : Prop :=
  bt_ch t' = bt_ch t /\ length (mfm_data (bt_data t')) = length (mfm_data (bt_data t)) /\ md_ids (bt_meta t') = md_ids (bt_meta t) /\
  map i_start (md_items (bt_meta t')) = map i_start (md_items (bt_meta t)) /\ map i_end (md_items (bt_meta t')) = map i_end (md_items (bt_meta t)) /\ bt_schema t' = bt_schema t.
