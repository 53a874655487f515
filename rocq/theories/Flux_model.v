(* Flux_model.v - what the loaders of flux files share: revolutions and adding a flux track.
   A revolution is the list of the times between its flux transitions and its index time; the code holds them as f64 seconds, here they are
   integers (nanoseconds or clock ticks, as each loader says).  Decoding the revolutions of a track into bitstream tracks (the choice of the
   clock, the PLL - Pll_model.v - and BitStreamTrack::new) is an argument `dec`: it gets the cylinder and head and all revolutions, with the
   synthetic ones.  *)
From Verif Require Import Base Chs_model BitRing_model Mfm_model Types_model System34_model MetaSector_model BitStream_model DiskImage_model Pll_model.
Local Open Scope nat_scope.

Definition Rev : Set := (list N * N)%type.
Definition Decoder : Set := DiskCh -> list Rev -> outcome (list BitTrack).
(* FluxStreamTrack::new, add_revolution for each revolution (fluxstream.rs 448-452), then diskimage.rs 772-817 add_track_fluxstream *)
Definition flux_add (dec : Decoder) (d : DiskImage) (ch : DiskCh) (revs : list Rev) : outcome DiskImage :=
  let (d, r) := add_track_fluxstream d ch (dec ch (synthesize revs)) in
  let! _ := r in Ok d.
