(* Crc32_spec.v - reflected bit order; uses no model code. *)
From Verif Require Import Base Mfm_spec Crc_spec.

(* The 32 bits of a number in reverse order. *)
Definition mirror32 (x : N) : N := bits_val (map (fun i => N.testbit x (N.of_nat i)) (seq 0 32)).
(* The bits of a buffer, least significant bit of each byte first. *)
Definition bits_lsb (data : list N) : list bool := flat_map (fun b => rev (byte_bits b)) data.
(* Two buffers of the same length which differ, but only within w consecutive bits. *)
Definition burst (bits : list N -> list bool) (w : nat) (a b : list N) : Prop :=
  length a = length b /\ a <> b /\
  exists p, forall i, nth i (bits a) false <> nth i (bits b) false -> p <= i < p + w.
