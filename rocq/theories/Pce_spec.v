(* Pce_spec.v - what a PRI file keeps of an image. *)
From Verif Require Import Base Chs_model BitRing_model Mfm_model Types_model System34_model BitStream_model DiskImage_model DiskImage_spec.

Definition cells (t : BitTrack) : list bool := mfm_data (bt_data t).
Definition weak_cells (t : BitTrack) : list bool := r_bits (m_weak (bt_data t)).
(* every bit one position later, the last one dropped *)
Definition one_late (l : list bool) : list bool := match l with [] => [] | _ => false :: removelast l end.
(* the tracks of an image by head and cylinder, each labelled with its position *)
Definition labelled (s : Heads) : Prop :=
  forall c h t, (h < 2)%N -> nth_error (side s h) c = Some t -> exists b, t = TBit b /\ bt_ch b = mkCh (N.of_nat c) h.
(* sizes a PRI file can record: 2^20 bytes per chunk, 32-bit lengths, 16-bit cylinder numbers *)
Definition recordable (t : BitTrack) : Prop :=
  length (weak_cells t) = length (cells t) /\ (N.of_nat (length (cells t)) <= 8 * 0x100000)%N /\
  (* at most 2^17 entries of 32 cells in the weak bit table *)
  (existsb (fun b => b) (weak_cells t) = true -> (N.of_nat (length (cells t)) <= 32 * 0x20000)%N).
(* the cells can be added as a track again: the track scan succeeds *)
Definition loadable (rnd : Rnd) (t : BitTrack) : Prop :=
  exists t', bt_new (rnd_bit rnd) (bt_ch t) (to_bytes (cells t)) None (Some (length (cells t))) false = Ok t'.
(* position and cells are the same; the weak cells are those of the file, see one_late *)
Definition restored (t t' : DTrack) : Prop :=
  match t, t' with
  | TBit b, TBit b' =>
      bt_ch b' = bt_ch b /\ cells b' = cells b /\
      weak_cells b' = (if existsb (fun x => x) (weak_cells b) then one_late (weak_cells b) else weak_cells b)
  | _, _ => False
  end.
