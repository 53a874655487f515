(* Scp_spec.v - SuperCard Pro files: the fields of the file by position. *)
From Verif Require Import Base Chs_model BitRing_model Mfm_model Types_model System34_model MetaSector_model BitStream_model DiskImage_model DiskImage_spec Layout_spec Flux_model Pll_model.
Local Open Scope nat_scope.

(* Flux words: each transition is written as any number of zero words and one word d <> 0, and comes d + roll * (number of zeros) ticks after the
   last; zero words at the end mean nothing. *)
Definition flux_words (roll : N) (words times : list N) : Prop :=
  exists (fluxes : list (nat * N)) (k : nat),
    words = flat_map (fun f => repeat 0%N (fst f) ++ [snd f]) fluxes ++ repeat 0%N k /\ Forall (fun f => snd f <> 0%N) fluxes /\
    times = map (fun f => snd f + roll * N.of_nat (fst f))%N fluxes.

(* the offset table at 16: the position of the i-th track's header *)
Definition scp_entry (file : list N) (i : nat) : N := le32_at file (16 + 4 * i).
(* revolution r of the track at p: index time in units of 25 ns, number of flux words, position of these behind p *)
Definition scp_index (file : list N) (p r : nat) : N := le32_at file (p + 4 + 12 * r).
Definition scp_length (file : list N) (p r : nat) : N := le32_at file (p + 4 + 12 * r + 4).
Definition scp_data (file : list N) (p r : nat) : nat := p + N.to_nat (le32_at file (p + 4 + 12 * r + 8)).
Definition scp_words (file : list N) (p r : nat) : list N :=
  map (fun k => be16_at file (scp_data file p r + 2 * k)) (seq 0 (N.to_nat (scp_length file p r))).
Record scp_track (file : list N) (p revs : nat) : Prop := mkScpTrack {
  st_inside : p + 4 + 12 * revs <= length file;
  st_magic : bytes_at file p 3 = [0x54; 0x52; 0x4B]%N;                     (* TRK *)
  st_revs : forall r, r < revs -> (scp_index file p r * 25 < 2 ^ 32)%N /\
    (0 < scp_length file p r -> N.of_nat (scp_data file p r) + 2 * scp_length file p r <= N.of_nat (length file))%N }.
(* a file with n tracks of `revs` revolutions each *)
Record scp_file (file : list N) (n heads revs : nat) : Prop := mkScpFile {
  sf_magic : bytes_at file 0 3 = [0x53; 0x43; 0x50]%N;                     (* SCP *)
  sf_type : In (N.land (byte_at file 4) 0xF0) [0x00; 0x10; 0x20; 0x30; 0x40; 0x50; 0x60; 0x70; 0x80; 0xE0; 0xF0]%N;
  sf_revs : byte_at file 5 = N.of_nat revs;
  sf_flags : N.testbit (byte_at file 8) 6 = false;                         (* not in extended mode *)
  sf_width : byte_at file 9 = 0%N;
  sf_heads : byte_at file 10 = 0%N /\ heads = 2 \/ byte_at file 10 = 1%N /\ heads = 1;
  sf_some : 1 <= n <= 84 * heads;
  sf_table : (20 <= scp_entry file 0)%N /\ (N.of_nat n <= (scp_entry file 0 - 16) / 4)%N;
  sf_rising : forall i, S i < n -> (scp_entry file i < scp_entry file (S i) < N.of_nat (length file))%N;
  sf_end : (N.of_nat n < (scp_entry file 0 - 16) / 4)%N -> scp_entry file n = 0%N;
  sf_tracks : forall i, i < n -> scp_track file (N.to_nat (scp_entry file i)) revs }.
(* the revolutions of track i, in nanoseconds, when its words stand for the times `ticks` *)
Definition scp_revolutions (roll : N) (file : list N) (revs i : nat) (rs : list Rev) : Prop :=
  let p := N.to_nat (scp_entry file i) in
  length rs = revs /\
  forall r, r < revs -> exists ticks, flux_words roll (scp_words file p r) ticks /\
    nth_error rs r = Some (map (fun t => t * (25 + 25 * byte_at file 11))%N ticks, (scp_index file p r * 25)%N).
