(* F86_spec.v - what an 86F file keeps of an image. *)
From Verif Require Import Base Chs_model BitRing_model Mfm_model Types_model System34_model BitStream_model DiskImage_model
  DiskImage_spec Pce_spec F86_model.

Definition cell (t : BitTrack) (i : nat) : bool := nth i (cells t) false.
Definition weak_cell (t : BitTrack) (i : nat) : bool := nth i (weak_cells t) false.
(* bytes needed for the cells *)
Definition octets (t : BitTrack) : nat := length (to_bytes (cells t)).
(* the surface description as it is read back: displaced by eight cells when the track has an odd number of bytes *)
Definition surface_cell (t : BitTrack) (i : nat) : bool :=
  if Nat.even (octets t) then weak_cell t i else (8 <=? i) && weak_cell t (i - 8).
(* t' is what is loaded for t.  A weak cell of t is a one in the file (`hole`: a zero, Prolok cylinder 39), and a cell is weak in t'
   when the surface description marks it and it is a one *)
Definition kept (hole : bool) (t t' : BitTrack) : Prop :=
  cells t' = map (fun i => if hole then cell t i && negb (weak_cell t i) else cell t i || weak_cell t i) (seq 0 (length (cells t))) /\
  forall i, i < length (cells t) -> weak_cell t' i = surface_cell t i && cell t' i.
(* the bytes of the file for one track: cells and weak cells, and the track that is added from them can be scanned *)
Definition file_cells (hole : bool) (t : BitTrack) : list N :=
  map (fun j => let b := nth j (to_bytes (cells t)) 0%N in let w := nth j (to_bytes (weak_cells t)) 0%N in
                if hole then N.ldiff b w else N.lor b w) (seq 0 (octets t)).
Definition file_surface (t : BitTrack) : list N :=
  map (fun j => if Nat.even (octets t) then nth j (to_bytes (weak_cells t)) 0%N
                else match j with O => 0%N | S j => nth j (to_bytes (weak_cells t)) 0%N end) (seq 0 (octets t)).
Definition file_weak (hole : bool) (t : BitTrack) : option (list N) :=
  let w := map (fun j => N.land (nth j (file_surface t) 0%N) (nth j (file_cells hole t) 0%N)) (seq 0 (octets t)) in
  if forallb (N.eqb 0) w then None else Some w.
Definition f86_loadable (rnd : Rnd) (hole : bool) (t : BitTrack) : Prop :=
  exists t', bt_new (rnd_bit rnd) (bt_ch t) (file_cells hole t) (file_weak hole t) (Some (length (cells t))) false = Ok t'.
(* Images an 86F file can hold: bitstream tracks on every position of the geometry (a one-sided image needs tracks on the second head
   too), at most 1 MiB per track, weak mask and cells of equal length in bytes *)
Definition f86_track_ok (rnd : Rnd) (hole : bool) (t : BitTrack) : Prop :=
  r_wrap (m_bits (bt_data t)) = length (cells t) /\ r_wrapv (m_bits (bt_data t)) = None /\ cells t <> [] /\
  (N.of_nat (length (cells t)) <= 8 * 0x100000)%N /\
  length (to_bytes (weak_cells t)) = octets t /\ f86_loadable rnd hole t.
Definition is_hole (dd : DiskDesc) (c h : nat) : bool := dd_prolok dd && (c =? 39) && (h =? 0).
Record f86_image (rnd : Rnd) (d : DiskImage) (dd : DiskDesc) (s : Heads) (cyls heads : nat) : Prop := mkF86I {
  fi_valid : maps_valid d; fi_shows : shows d s; fi_res : di_res d = [RBitStream];
  fi_geom : di_geom d = mkCh (N.of_nat cyls) (N.of_nat heads);
  fi_heads : heads = 1 \/ heads = 2; fi_cyls : 0 < cyls;
  fi_both : cyls <= length (fst s) /\ cyls <= length (snd s);
  fi_tracks : forall c h, c < cyls -> h < heads ->
    exists t, nth_error (side s (N.of_nat h)) c = Some (TBit t) /\ f86_track_ok rnd (is_hole dd c h) t;
  fi_density : (dd_density dd <= 1)%N; fi_rate : (dd_rate dd <= 3)%N; fi_enc : dd_encoding dd = 1%N }.
(* tracks are stored twice when the image has less than 80 cylinders *)
Definition copies (cyls : nat) : nat := if cyls <? 80 then 2 else 1.
(* at most 256 entries per head *)
Definition stored_cyls (cyls : nat) : nat := Nat.min (cyls * copies cyls) 256.
