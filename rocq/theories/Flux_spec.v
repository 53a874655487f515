(* Flux_spec.v - what the loaders of flux files produce. *)
From Verif Require Import Base Chs_model BitRing_model Mfm_model Types_model System34_model MetaSector_model BitStream_model DiskImage_model DiskImage_spec Pll_model Flux_model.
Local Open Scope nat_scope.

(* the flux track whose revolutions decode to `bs`: the best one is in use (C44) *)
Definition flux_track (ch : DiskCh) (bs : list BitTrack) : DTrack := TFlux (analyze_revolutions (mkFlux ch (length bs) (map Some bs) 0)).
(* n tracks in the order cylinder by cylinder, head by head *)
Definition laid (heads n : nat) (f : nat -> DTrack) (s : Heads) : Prop :=
  length (fst s) = (n + heads - 1) / heads /\ length (snd s) = (if heads =? 2 then n / 2 else 0) /\
  forall i, i < n -> nth_error (side s (N.of_nat (i mod heads))) (i / heads) = Some (f i).
Definition ch_at (heads i : nat) : DiskCh := mkCh (N.of_nat (i / heads)) (N.of_nat (i mod heads)).
