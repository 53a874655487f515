(* System34_spec.v - the IBM System 34 track layout, independent of the formatting and scanning code.
   Shares only data types, n_to_bytes and the CRC function (whose meaning is C12) with the model. *)
From Verif Require Import Base Chs_model Crc_model System34_model.

(* A sector as a user sees it: its id and its data. *)
Record fsector : Set := mkFS { fs_id : DiskChsn; fs_data : list N }.
(* The data has the size the id announces; all fields are bytes. *)
Definition sector_ok (s : fsector) : Prop :=
  length (fs_data s) = n_size (fs_id s) /\ bytes_ok (fs_data s) = true /\
  bytes_ok [chsn_c (fs_id s); chsn_h (fs_id s); chsn_s (fs_id s); chsn_n (fs_id s)] = true.

Definition with_crc (l : list N) : list N := l ++ be16 (crc_ibm_3740 l None).
Definition header_field (i : DiskChsn) : list N :=
  with_crc ([0xA1; 0xA1; 0xA1; 0xFE] ++ [(chsn_c i mod 256)%N; chsn_h i; chsn_s i; chsn_n i])%N.
Definition data_field (d : list N) : list N := with_crc ([0xA1; 0xA1; 0xA1; 0xFB]%N ++ d).
Definition gap2_len (std : Standard) : nat := match std with SPerpendicular => 41 | _ => 22 end.
(* sync, header, gap 2, sync, data, gap 3 *)
Definition sector_bytes (std : Standard) (gap3 : nat) (s : fsector) : list N :=
  repeat 0%N 12 ++ header_field (fs_id s) ++ repeat 0x4E%N (gap2_len std) ++
  repeat 0%N 12 ++ data_field (fs_data s) ++ repeat 0x4E%N gap3.
Definition preamble (std : Standard) : list N :=
  match std with SIso => repeat 0x4E%N 32 | _ => repeat 0x4E%N 80 ++ repeat 0%N 12 end.
Definition layout (std : Standard) (gap3 : nat) (ss : list fsector) : list N :=
  preamble std ++ flat_map (sector_bytes std gap3) ss.
(* padded with gap bytes to the track length *)
Definition track_layout (std : Standard) (gap3 T : nat) (ss : list fsector) : list N :=
  let b := layout std gap3 ss in b ++ repeat 0x4E%N (T - length b).

(* The k-th data byte of the track is pattern byte k modulo the pattern length. *)
Definition fill (pat : list N) (k n : nat) : list N :=
  map (fun i => nth ((k + i) mod length pat) pat 0%N) (seq 0 n).
Fixpoint filled (pat : list N) (k : nat) (ids : list DiskChsn) : list fsector :=
  match ids with
  | [] => []
  | i :: t => mkFS i (fill pat k (n_size i)) :: filled pat (k + n_size i) t
  end.

(* Byte offsets at which the sectors of a track begin. *)
Definition sector_len (std : Standard) (gap3 : nat) (s : fsector) : nat :=
  40 + gap2_len std + length (fs_data s) + gap3.
Fixpoint slots (std : Standard) (gap3 off : nat) (ss : list fsector) : list (nat * fsector) :=
  match ss with
  | [] => []
  | s :: t => (off, s) :: slots std gap3 (off + sector_len std gap3 s) t
  end.
Definition track_slots (std : Standard) (gap3 : nat) (ss : list fsector) : list (nat * fsector) :=
  slots std gap3 (length (preamble std)) ss.
(* address marks: at most an index mark at byte 92, then for each sector an id mark after the first
   sync run and a data mark after the second *)
Definition idam_at (o : nat) : nat := o + 12.
Definition dam_at (std : Standard) (o : nat) : nat := o + 34 + gap2_len std.
Definition iam_at (std : Standard) : option nat := match std with SIso => None | _ => Some 92 end.
Definition track_marks (std : Standard) (gap3 : nat) (ss : list fsector) : list (S34Marker * nat) :=
  (match iam_at std with Some p => [(Iam, p)] | None => [] end) ++
  flat_map (fun '(o, s) => [(Idam, idam_at o); (Dam, dam_at std o)]) (track_slots std gap3 ss).

(* The sectors fit a track of T bytes (without wrapping over the index). *)
Definition fits (std : Standard) (gap3 T : nat) (ss : list fsector) : Prop :=
  96 <= T /\ length (layout std gap3 ss) <= T.
